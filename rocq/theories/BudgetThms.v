(** Exhaustive trees with different budgets, side by side. *)
From Coq Require Import List Arith Bool ZArith QArith Qcanon Lia Permutation.
From Verif Require Import Base Num Rng Histogram Utils Criteria Solvers Tree Spec SolverSpec TreeSpec TrainSpec NestSpec GrowSpec BudgetSpec ListFacts NumFacts TreeFacts TreeThms TreeTotal TreeMore TrainFacts TrainExact ColSim NestThms NestTree GrowFacts GrowThms GrowStops.
Import ListNotations.
Local Open Scope nat_scope.

Lemma ok_inv {A} (x y : A) : Ok x = Ok y -> x = y. Proof. congruence. Qed.
(** ** Equal but for the budget *)
Definition rebudget (b : option Z) (t : tree) : tree :=
  {| t_data := t_data t; t_labels := t_labels t; t_n := t_n t; t_dd := t_dd t; t_feats := t_feats t; t_nodes := t_nodes t; t_leaves := t_leaves t; t_budget := b;
     t_queries := t_queries t; t_splits := t_splits t; t_depth := t_depth t |}.
Definition exhausted (b : option Z) : bool := match b with None => false | Some x => (x <=? 0)%Z end.
Lemma exhausted_le b b' : budget_le b b' -> exhausted b' = true -> exhausted b = true.
Proof. destruct b, b'; cbn; try discriminate; try tauto. intros A B. apply Z.leb_le in B. apply Z.leb_le. lia. Qed.
Definition less (b : option Z) (q : nat) : option Z := match b with None => None | Some x => Some (x - Z.of_nat q)%Z end.
Lemma less_le b b' q : budget_le b b' -> budget_le (less b q) (less b' q).
Proof. destruct b, b'; cbn; auto. lia. Qed.

Section Sim.
Context (M : math) (c : tcfg) (SV : tc_solver c = EXACT).

Lemma solve_budget nd b b' e : node_solve M c nd b e = node_solve M c nd b' e.
Proof. unfold node_solve. now rewrite SV. Qed.
Lemma best_budget nd b b' e : calculate_best_split M c nd b e = calculate_best_split M c nd b' e.
Proof. unfold calculate_best_split. now rewrite (solve_budget nd b b' e). Qed.

(** Two scans in step. *)
Definition instep (z z' : scan) : Prop := exists b', z' = {| sc_tree := rebudget b' (sc_tree z); sc_env := sc_env z; sc_best := sc_best z; sc_stop := sc_stop z |} /\ budget_le (t_budget (sc_tree z)) b'.
Lemma scan_sim z z' pl z1 z1' : instep z z' -> scan_leaf M c z pl = Ok z1 -> scan_leaf M c z' pl = Ok z1' ->
  instep z1 z1' \/ (sc_stop z1 = true /\ exhausted (t_budget (sc_tree z1)) = true /\ t_queries (sc_tree z1) = t_queries (sc_tree z) /\ sc_best z1 = sc_best z /\ sc_best z = sc_best z').
Proof.
  intros (b' & -> & LE) H H'. unfold scan_leaf in H, H'. cbn [sc_stop sc_tree sc_env sc_best] in H'. destruct (sc_stop z) eqn:ST.
  { apply ok_inv in H. apply ok_inv in H'. subst z1 z1'. left. exists b'. rewrite ST. auto. }
  destruct pl as [pos id]. cbn [rebudget t_nodes] in H'. apply rbind_ok in H. destruct H as [nd [E1 H]]. rewrite E1 in H'. cbn [rbind] in H'. apply rbind_ok in H. destruct H as [ok [E2 H]]. rewrite E2 in H'. cbn [rbind] in H'.
  destruct ok; cbn [negb] in H, H'.
  2:{ apply ok_inv in H. apply ok_inv in H'. subst z1 z1'. left. exists b'. split; auto. }
  change (match t_budget (sc_tree z) with None => false | Some b => (b <=? 0)%Z end) with (exhausted (t_budget (sc_tree z))) in H. change (match t_budget (rebudget b' (sc_tree z)) with None => false | Some b => (b <=? 0)%Z end) with (exhausted b') in H'.
  destruct (exhausted (t_budget (sc_tree z))) eqn:X.
  { apply ok_inv in H. subst z1. destruct (exhausted b') eqn:X'.
    - apply ok_inv in H'. subst z1'. left. exists b'. split; auto.
    - right. cbn [sc_stop sc_tree sc_best]. auto. }
  destruct (exhausted b') eqn:X'; [rewrite (exhausted_le _ _ LE X') in X; discriminate|].
  rewrite (best_budget nd _ (t_budget (sc_tree z)) (sc_env z)) in H'. apply rbind_ok in H. destruct H as [[[nd1 red] e1] [E3 H]]. rewrite E3 in H'. cbn [rbind] in H'. cbv zeta in H, H'.
  set (t2 := if nd_computed nd then put_node (sc_tree z) id nd1 else pay (put_node (sc_tree z) id nd1) (nd_queries nd1)) in *.
  set (b2 := if nd_computed nd then b' else less b' (nd_queries nd1)).
  assert (T2 : (if nd_computed nd then put_node (rebudget b' (sc_tree z)) id nd1 else pay (put_node (rebudget b' (sc_tree z)) id nd1) (nd_queries nd1)) = rebudget b2 t2) by (unfold t2, b2; destruct (nd_computed nd); reflexivity).
  rewrite T2 in H'. assert (LE2 : budget_le (t_budget t2) b2) by (unfold t2, b2; destruct (nd_computed nd); [exact LE|apply (less_le _ _ (nd_queries nd1) LE)]).
  apply rbind_ok in H. destruct H as [[[spl nd3] e3] [E4 H]]. change (check_splittable M c (rebudget b2 t2) nd1 e1) with (check_splittable M c t2 nd1 e1) in H'. rewrite E4 in H'. cbn [rbind] in H'.
  apply ok_inv in H. apply ok_inv in H'. subst z1 z1'. left. exists b2. split; [reflexivity|exact LE2].
Qed.
(** The best leaf so far only improves. *)
Definition at_least (o o' : option (nat * nat * xn)) : Prop := match o with None => True | Some (_, _, x) => match o' with Some (_, _, y) => xlt x y = false | None => False end end.
Lemma xlt_irr x : xlt x x = false.
Proof. destruct x as [q| | |]; cbn; auto. apply qlt_false. apply Qcle_refl. Qed.
Lemma xlt_swap x y w : xlt x y = false -> xlt w y = true -> xlt x w = false.
Proof.
  intros A B. destruct (xlt x w) eqn:C; auto. rewrite <- A. destruct x as [x| | |], y as [y| | |], w as [w| | |]; cbn in *; try discriminate; auto. apply qlt_spec in B, C. symmetry. apply qlt_spec. eapply Qclt_trans; eauto.
Qed.
Lemma at_least_refl o : at_least o o.
Proof. destruct o as [[[p i] x]|]; cbn; auto. apply xlt_irr. Qed.
Lemma scan_improves z pl z1 o : at_least o (sc_best z) -> scan_leaf M c z pl = Ok z1 -> at_least o (sc_best z1).
Proof.
  intros A H. unfold scan_leaf in H. destruct (sc_stop z); [apply ok_inv in H; now subst|]. destruct pl as [pos id]. apply rbind_ok in H. destruct H as [nd [E1 H]]. apply rbind_ok in H. destruct H as [ok [E2 H]].
  destruct ok; cbn [negb] in H; [|apply ok_inv in H; now subst]. match type of H with (if ?b then _ else _) = _ => destruct b end; [apply ok_inv in H; now subst|].
  apply rbind_ok in H. destruct H as [[[nd1 red] e1] [E3 H]]. cbv zeta in H. apply rbind_ok in H. destruct H as [[[spl nd3] e3] [E4 H]]. apply ok_inv in H. subst z1. cbn [sc_best].
  destruct red as [x|]; [|exact A]. match goal with |- at_least o (if ?b then _ else _) => destruct b eqn:B end; [|exact A]. apply andb_prop in B. destruct B as [B _].
  destruct o as [[[p i] w]|]; cbn in *; auto. destruct (sc_best z) as [[[p' i'] y]|]; [|contradiction]. eapply xlt_swap; eauto.
Qed.
Lemma scans_improve l : forall z z1 o, at_least o (sc_best z) -> foldM (scan_leaf M c) z l = Ok z1 -> at_least o (sc_best z1).
Proof.
  induction l as [|pl l IH]; intros z z1 o A H; cbn [foldM] in H; [apply ok_inv in H; now subst|]. apply rbind_ok in H. destruct H as [z2 [E H]]. eapply IH; [|exact H]. eapply scan_improves; eauto.
Qed.
Lemma scans_stopped l : forall z, sc_stop z = true -> foldM (scan_leaf M c) z l = Ok z.
Proof. induction l as [|pl l IH]; intros z H; cbn [foldM]; auto. unfold scan_leaf at 1. rewrite H. cbn [rbind]. auto. Qed.
Lemma scan_pays z pl z1 : scan_leaf M c z pl = Ok z1 -> t_queries (sc_tree z) <= t_queries (sc_tree z1).
Proof.
  intros H. unfold scan_leaf in H. destruct (sc_stop z); [apply ok_inv in H; now subst|]. destruct pl as [pos id]. apply rbind_ok in H. destruct H as [nd [E1 H]]. apply rbind_ok in H. destruct H as [ok [E2 H]].
  destruct ok; cbn [negb] in H; [|apply ok_inv in H; now subst]. match type of H with (if ?b then _ else _) = _ => destruct b end; [apply ok_inv in H; now subst|].
  apply rbind_ok in H. destruct H as [[[nd1 red] e1] [E3 H]]. cbv zeta in H. apply rbind_ok in H. destruct H as [[[spl nd3] e3] [E4 H]]. apply ok_inv in H. subst z1. cbn [sc_tree]. destruct (nd_computed nd); cbn; lia.
Qed.
Lemma scans_pay l : forall z z1, foldM (scan_leaf M c) z l = Ok z1 -> t_queries (sc_tree z) <= t_queries (sc_tree z1).
Proof.
  induction l as [|pl l IH]; intros z z1 H; cbn [foldM] in H; [apply ok_inv in H; now subst|]. apply rbind_ok in H. destruct H as [z2 [E H]]. apply scan_pays in E. apply IH in H. lia.
Qed.
Lemma scans_sim l : forall z z' z1 z1', instep z z' -> foldM (scan_leaf M c) z l = Ok z1 -> foldM (scan_leaf M c) z' l = Ok z1' ->
  instep z1 z1' \/ (exhausted (t_budget (sc_tree z1)) = true /\ at_least (sc_best z1) (sc_best z1') /\ t_queries (sc_tree z1) <= t_queries (sc_tree z1')).
Proof.
  induction l as [|pl l IH]; intros z z' z1 z1' S H H'; cbn [foldM] in H, H'; [apply ok_inv in H; apply ok_inv in H'; subst; auto|].
  apply rbind_ok in H. destruct H as [y [E H]]. apply rbind_ok in H'. destruct H' as [y' [E' H']]. destruct (scan_sim _ _ _ _ _ S E E') as [S1|(S1 & S2 & S5 & S3 & S4)]; [eauto|].
  rewrite (scans_stopped l y S1) in H. apply ok_inv in H. subst z1. right. split; auto. split.
  - eapply scans_improve; [|exact H']. eapply scan_improves; [|exact E']. rewrite S3, S4. apply at_least_refl.
  - apply scan_pays in E'. apply scans_pay in H'. destruct S as (b' & -> & _). cbn [sc_tree rebudget t_queries] in E'. lia.
Qed.

(** ** The sum of the recorded changes *)
Definition weigh (nd : node) : Qc := if is_split nd then recorded nd else 0%Qc.
Definition changes (ns : list node) : Qc := qsum (map weigh ns).
Lemma changes_split t : split_changes t = changes (t_nodes t).
Proof. unfold split_changes, changes. change total with qsum. induction (t_nodes t) as [|nd l IH]; cbn [filter map qsum]; auto. unfold weigh at 1. destruct (is_split nd); cbn [map qsum]; rewrite IH; ring. Qed.
Lemma changes_app l l' : changes (l ++ l') = (changes l + changes l')%Qc.
Proof. unfold changes. rewrite map_app. apply qsum_app. Qed.
Lemma changes_set l i x y : nth_error l i = Some x -> changes (set_nth i y l) = (changes l - weigh x + weigh y)%Qc.
Proof.
  revert i. unfold changes. induction l as [|a l IH]; intros [|i] H; try discriminate H; cbn [set_nth map qsum].
  - cbn in H. injection H as ->. ring.
  - rewrite (IH i) by exact H. ring.
Qed.
Lemma put_changes t id nd nd1 : node_at t id nd -> nd_left nd = None -> nd_left nd1 = None -> changes (t_nodes (put_node t id nd1)) = changes (t_nodes t).
Proof. intros A L L1. cbn [put_node set_nodes t_nodes]. rewrite (changes_set _ _ nd) by exact A. unfold weigh, is_split. rewrite L, L1. ring. Qed.
Lemma scan_changes z pos id z1 : (forall nd, node_at (sc_tree z) id nd -> nd_left nd = None) -> scan_leaf M c z (pos, id) = Ok z1 -> changes (t_nodes (sc_tree z1)) = changes (t_nodes (sc_tree z)).
Proof.
  intros F H. unfold scan_leaf in H. destruct (sc_stop z); [apply ok_inv in H; now subst|].
  apply rbind_ok in H. destruct H as [nd [E1 H]]. apply nth_res_ok in E1. pose proof (F _ E1) as LF. apply rbind_ok in H. destruct H as [ok [E2 H]]. destruct ok; cbn [negb] in H.
  2:{ apply ok_inv in H. subst z1. cbn [sc_tree]. eapply put_changes; eauto. }
  match type of H with (if ?b then _ else _) = _ => destruct b end; [apply ok_inv in H; now subst|].
  apply rbind_ok in H. destruct H as [[[nd1 red] e1] [E3 H]]. destruct (best_computed _ _ _ _ _ _ _ _ E3) as [C1 S1]. destruct (best_nle _ _ _ _ _ _ _ _ LF E3) as [N1 LF1]. cbv zeta in H.
  set (t2 := if nd_computed nd then put_node (sc_tree z) id nd1 else pay (put_node (sc_tree z) id nd1) (nd_queries nd1)) in *.
  assert (TN : t_nodes t2 = t_nodes (put_node (sc_tree z) id nd1)) by (unfold t2; destruct (nd_computed nd); reflexivity).
  assert (A2 : nth_error (t_nodes t2) id = Some nd1) by (rewrite TN; cbn [put_node set_nodes t_nodes]; now rewrite set_nth_nth, E1, Nat.eqb_refl).
  apply rbind_ok in H. destruct H as [[[spl nd3] e3] [E4 H]]. apply ok_inv in H. subst z1. cbn [sc_tree].
  assert (L3 : nd_left nd3 = None). { destruct (nd_splittable nd1); [assert (nd3 = nd1) by congruence; now subst|]. apply rbind_ok in E4. destruct E4 as [[[b nd2] e2] [E5 E4]]. apply (splittable_same _ _ _ _ _ _ _ _ C1) in E5. subst nd2. assert (nd3 = with_splittable nd1 b) by congruence. now subst nd3. }
  rewrite (put_changes t2 id nd1 nd3 A2 LF1 L3). rewrite TN. eapply put_changes; eauto.
Qed.
Section Inv.
Context (D : list (list Qc)) (L : list Qc) (FS I0 : list nat) (b0 : option Z).
Notation inv := (tinv M c D L FS I0 b0).
Lemma scans_changes t l : (forall pos id, In (pos, id) l -> nth_error (t_leaves t) pos = Some id) ->
  forall z z1, scan_ok M c D L FS I0 b0 t z -> foldM (scan_leaf M c) z l = Ok z1 -> changes (t_nodes (sc_tree z1)) = changes (t_nodes (sc_tree z)).
Proof.
  induction l as [|[pos id] l IH]; intros HL z z1 S H; cbn [foldM] in H; [apply ok_inv in H; now subst|].
  apply rbind_ok in H. destruct H as [z2 [E H]]. assert (P1 : nth_error (t_leaves t) pos = Some id) by (apply HL; now left).
  assert (A1 : changes (t_nodes (sc_tree z2)) = changes (t_nodes (sc_tree z))).
  { eapply scan_changes; [|exact E]. intros nd A. pose proof (so_tree _ _ _ _ _ _ _ _ _ S) as T. assert (I : In id (t_leaves (sc_tree z))) by (rewrite (so_leaves _ _ _ _ _ _ _ _ _ S); eapply nth_error_In; eauto).
    apply (ti_leaves _ _ _ _ _ _ _ _ T) in I. destruct I as [x [X LF]]. unfold node_at in *. congruence. }
  rewrite <- A1. apply (IH (fun p i J => HL p i (or_intror J))); auto. eapply scan_leaf_ok; eauto.
Qed.
(** What one step adds: the reduction of the best leaf, which is now a split node. *)
Definition rec_of (x : xn) : Qc := match x with Fin q => q | _ => 0%Qc end.
Lemma step_changes t e t' e' b s : inv t -> foldM (scan_leaf M c) {| sc_tree := t; sc_env := e; sc_best := None; sc_stop := false |} (combine (seq 0 (length (t_leaves t))) (t_leaves t)) = Ok s ->
  fit_step M c t e = Ok (t', e', b) ->
  t_budget t' = t_budget (sc_tree s) /\ t_queries t' = t_queries (sc_tree s) /\
  match sc_best s with
  | Some (pos, id, x) => xlt x (Fin 0) = true /\ b = xlt x (Fin (tc_min_imp c)) /\ (b = true -> (changes (t_nodes t') = changes (t_nodes t) + rec_of x)%Qc /\ exists nd, node_at t' id nd /\ nd_left nd <> None /\ nd_red nd = Some x)
  | None => b = false
  end /\ (b = false -> changes (t_nodes t') = changes (t_nodes t)).
Proof.
  intros T ES H. unfold fit_step in H. rewrite ES in H. cbn [rbind] in H. pose proof (scan_ok_all _ _ _ _ _ _ _ _ _ _ T ES) as SO.
  assert (S0 : scan_ok M c D L FS I0 b0 t {| sc_tree := t; sc_env := e; sc_best := None; sc_stop := false |}) by (constructor; cbn; auto).
  pose proof (scans_changes t _ (leaf_places (t_leaves t)) _ _ S0 ES) as CH. cbn [sc_tree] in CH.
  destruct SO as [T1 L1 S1 NN1 B1]. cbv zeta in H. apply rbind_ok in H. destruct H as [[[t3 e3] cont] [EC H]]. apply rbind_ok in H. destruct H as [d [ED H]]. apply ok_pair_inv in H. destruct H as [H <-]. apply pair_equal_spec in H. destruct H as [<- _].
  cbn [set_depth t_budget t_queries t_nodes].
  destruct (sc_best s) as [[[pos id] x]|].
  2:{ apply ok_inv in EC. apply pair_equal_spec in EC. destruct EC as [EC <-]. apply pair_equal_spec in EC. destruct EC as [<- _]. auto. }
  destruct B1 as [P [nd [A [LF [CC [RX SP]]]]]].
  assert (X0 : xlt x (Fin 0) = true).
  { assert (CE : with_stops c (tc_max_depth c) (tc_min_split c) (tc_min_imp c) = c) by (destruct c; reflexivity).
    apply (red_neg M c (tc_max_depth c) (tc_min_split c) (tc_min_imp c) D L FS I0 nd x); [rewrite CE; apply (ti_node _ _ _ _ _ _ _ _ T1 _ _ A)|exact RX]. }
  destruct (xlt x (Fin (tc_min_imp c))) eqn:X.
  2:{ apply ok_inv in EC. apply pair_equal_spec in EC. destruct EC as [EC <-]. apply pair_equal_spec in EC. destruct EC as [<- _]. ands; auto. discriminate. }
  apply rbind_ok in EC. destruct EC as [[t2 e2] [E2 EC]]. cbn [fst snd] in EC.
  destruct (fit_step_split _ _ _ _ _ _ _ _ _ _ _ _ _ _ _ T1 P A LF CC RX X E2) as [nl [nr [nd' [TE [A' [EN' [TI _]]]]]]].
  apply rbind_ok in EC. destruct EC as [nd2 [EN EC]]. apply nth_res_ok in EN. cbn [inc_splits t_nodes] in EN. assert (nd2 = nd') by (unfold node_at in *; congruence). subst nd2 nd'.
  apply ok_pair_inv in EC. destruct EC as [EC <-]. apply pair_equal_spec in EC. destruct EC as [<- _].
  assert (NW : nd_left nl = None /\ nd_left nr = None).
  { set (k := length (t_nodes (sc_tree s))) in *. unfold node_at in A'. split.
    - destruct (nd_left nl) eqn:Q; auto. exfalso. assert (AN : node_at (set_leaves (inc_splits t2) (remove_nth pos (t_leaves (sc_tree s)) ++ [k; S k])) k nl).
      { unfold node_at. cbn [set_leaves inc_splits t_nodes]. rewrite TE. cbn [set_nodes t_nodes]. rewrite nth_error_app2; rewrite set_nth_length; [|unfold k; lia]. unfold k. now rewrite Nat.sub_diag. }
      assert (IL : In k (t_leaves (set_leaves (inc_splits t2) (remove_nth pos (t_leaves (sc_tree s)) ++ [k; S k])))) by (cbn [set_leaves t_leaves]; apply in_or_app; right; now left).
      apply (ti_leaves _ _ _ _ _ _ _ _ TI) in IL. destruct IL as [y [Y1 Y2]]. unfold node_at in *. congruence.
    - destruct (nd_left nr) eqn:Q; auto. exfalso. assert (AN : node_at (set_leaves (inc_splits t2) (remove_nth pos (t_leaves (sc_tree s)) ++ [k; S k])) (S k) nr).
      { unfold node_at. cbn [set_leaves inc_splits t_nodes]. rewrite TE. cbn [set_nodes t_nodes]. rewrite nth_error_app2; rewrite set_nth_length; [|unfold k; lia]. unfold k. replace (S (length (t_nodes (sc_tree s))) - length (t_nodes (sc_tree s))) with 1 by lia. reflexivity. }
      assert (IL : In (S k) (t_leaves (set_leaves (inc_splits t2) (remove_nth pos (t_leaves (sc_tree s)) ++ [k; S k])))) by (cbn [set_leaves t_leaves]; apply in_or_app; right; right; now left).
      apply (ti_leaves _ _ _ _ _ _ _ _ TI) in IL. destruct IL as [y [Y1 Y2]]. unfold node_at in *. congruence. }
  destruct NW as [NL NR]. cbn [set_leaves put_node set_nodes inc_splits t_budget t_queries t_nodes]. rewrite TE at 1 2. cbn [set_nodes t_budget t_queries].
  split; auto. split; auto. split; [|discriminate]. split; auto. split; auto. intros _. split.
  - rewrite (changes_set _ _ _ _ A'). rewrite TE. cbn [set_nodes t_nodes]. rewrite changes_app. rewrite (changes_set _ _ nd) by exact A. rewrite CH. unfold changes at 2. cbn [map qsum]. unfold weigh, is_split, recorded. cbn [with_children with_preds nd_left nd_red]. rewrite LF, NL, NR, RX. unfold rec_of. destruct x; ring.
  - eexists. split; [unfold node_at; cbn [set_depth set_leaves put_node set_nodes inc_splits t_nodes]; rewrite set_nth_nth; unfold node_at in A'; rewrite A', Nat.eqb_refl; reflexivity|]. cbn [with_children with_preds nd_left nd_red]. split; [discriminate|exact RX].
Qed.
Lemma scan_run t e t' e' b : fit_step M c t e = Ok (t', e', b) -> exists s, foldM (scan_leaf M c) {| sc_tree := t; sc_env := e; sc_best := None; sc_stop := false |} (combine (seq 0 (length (t_leaves t))) (t_leaves t)) = Ok s.
Proof. unfold fit_step. intros H. apply rbind_ok in H. destruct H as [s [ES _]]. eauto. Qed.
Lemma rec_neg x : xlt x (Fin 0) = true -> (rec_of x <= 0)%Qc.
Proof. destruct x as [q| | |]; cbn; try discriminate. intros H. apply qlt_spec in H. now apply Qclt_le_weak. Qed.
Lemma loop_changes fuel : forall t e t' e', inv t -> fit_loop M c fuel t e = Ok (t', e') -> (changes (t_nodes t') <= changes (t_nodes t))%Qc.
Proof.
  induction fuel as [|fuel IH]; intros t e t' e' T H; cbn [fit_loop] in H; apply rbind_ok in H; destruct H as [stop [EF H]]; destruct stop.
  - apply ok_pair_inv in H. destruct H as [<- _]. apply Qcle_refl.
  - discriminate H.
  - apply ok_pair_inv in H. destruct H as [<- _]. apply Qcle_refl.
  - apply rbind_ok in H. destruct H as [[[t1 e1] cont] [ES H]]. destruct (scan_run _ _ _ _ _ ES) as [s SC]. destruct (step_changes _ _ _ _ _ _ T SC ES) as (_ & _ & B & C).
    assert (LE : (changes (t_nodes t1) <= changes (t_nodes t))%Qc).
    { destruct (sc_best s) as [[[pos id] x]|]; [|rewrite (C B); apply Qcle_refl]. destruct B as (B1 & B2 & B3). destruct cont; [|rewrite (C eq_refl); apply Qcle_refl]. destruct (B3 eq_refl) as [-> _]. pose proof (rec_neg x B1). qlra. }
    destruct cont; [|apply ok_pair_inv in H; destruct H as [<- _]; exact LE]. destruct (fit_step_tinv _ _ _ _ _ _ _ _ _ _ _ _ T ES) as [T1 _]. eapply Qcle_trans; [eapply IH; eauto|exact LE].
Qed.
(** Nothing is split once the budget is used up. *)
Lemma exhausted_scan l : forall z z1, exhausted (t_budget (sc_tree z)) = true -> sc_best z = None -> foldM (scan_leaf M c) z l = Ok z1 -> sc_best z1 = None.
Proof.
  induction l as [|[pos id] l IH]; intros z z1 X B H; cbn [foldM] in H; [apply ok_inv in H; now subst|]. apply rbind_ok in H. destruct H as [z2 [E H]].
  unfold scan_leaf in E. destruct (sc_stop z) eqn:ST; [apply ok_inv in E; subst; eauto|]. apply rbind_ok in E. destruct E as [nd [E1 E]]. apply rbind_ok in E. destruct E as [ok [E2 E]]. destruct ok; cbn [negb] in E.
  - change (match t_budget (sc_tree z) with None => false | Some b => (b <=? 0)%Z end) with (exhausted (t_budget (sc_tree z))) in E. rewrite X in E. apply ok_inv in E. subst z2. eapply IH; [| |exact H]; auto.
  - apply ok_inv in E. subst z2. eapply IH; [| |exact H]; auto.
Qed.
Lemma exhausted_loop fuel t e t' e' : inv t -> exhausted (t_budget t) = true -> fit_loop M c fuel t e = Ok (t', e') -> changes (t_nodes t') = changes (t_nodes t).
Proof.
  intros T X H. destruct fuel as [|fuel]; cbn [fit_loop] in H; apply rbind_ok in H; destruct H as [stop [EF H]]; destruct stop; try discriminate H; try (apply ok_pair_inv in H; destruct H as [<- _]; reflexivity).
  apply rbind_ok in H. destruct H as [[[t1 e1] cont] [ES H]]. destruct (scan_run _ _ _ _ _ ES) as [s SC]. destruct (step_changes _ _ _ _ _ _ T SC ES) as (_ & _ & B & C).
  assert (SN : sc_best s = None) by (eapply exhausted_scan; [| |exact SC]; auto). rewrite SN in B. subst cont. apply ok_pair_inv in H. destruct H as [<- _]. auto.
Qed.
End Inv.

(** ** Steps in step *)
Lemma split_budget t id e b : node_split M c (rebudget b t) id e = match node_split M c t id e with Ok (t', e') => Ok (rebudget b t', e') | Err x => Err x end.
Proof.
  unfold node_split. cbn [rebudget t_nodes]. destruct (nth_res (t_nodes t) id) as [nd|]; cbn [rbind]; auto. destruct (guard (negb (nd_split_done nd)) GenericException); cbn [rbind]; auto.
  destruct (match nd_sf nd with Some _ => Ok (nd, e) | None => rbind (calculate_best_split M c nd None e) (fun r => Ok (fst (fst r), snd r)) end) as [[nd1 e1]|]; cbn [rbind]; auto. destruct (nd_red nd1) as [red|]; [|reflexivity].
  destruct (guard (xlt red (Fin 0)) AssertionError); cbn [rbind]; auto. destruct (opt_res (nd_data nd1) AttributeError); cbn [rbind]; auto. destruct (opt_res (nd_labels nd1) AttributeError); cbn [rbind]; auto.
  destruct (opt_res (nd_psf nd1) AttributeError); cbn [rbind]; auto. destruct (opt_res (nd_sv nd1) TypeError); cbn [rbind]; auto. destruct (col _ _); cbn [rbind]; auto.
  match goal with |- (if ?x then _ else _) = _ => destruct x; auto end.
  match goal with |- context [create_child c (rebudget b t) ?i ?n ?ls ?ix ?ev] => change (create_child c (rebudget b t) i n ls ix ev) with (create_child c t i n ls ix ev); destruct (create_child c t i n ls ix ev) as [[x ex]|]; cbn [rbind fst snd]; auto end.
  match goal with |- context [create_child c (rebudget b t) ?i ?n ?ls ?ix ?ev] => change (create_child c (rebudget b t) i n ls ix ev) with (create_child c t i n ls ix ev); destruct (create_child c t i n ls ix ev) as [[x' ex']|]; cbn [rbind fst snd]; auto end.
Qed.
Lemma finish_sim s t0 e0 b0 b : fit_step M c t0 e0 = Ok b0 ->
  foldM (scan_leaf M c) {| sc_tree := t0; sc_env := e0; sc_best := None; sc_stop := false |} (combine (seq 0 (length (t_leaves t0))) (t_leaves t0)) = Ok s ->
  forall t0' s', foldM (scan_leaf M c) {| sc_tree := t0'; sc_env := e0; sc_best := None; sc_stop := false |} (combine (seq 0 (length (t_leaves t0'))) (t_leaves t0')) = Ok s' ->
  s' = {| sc_tree := rebudget b (sc_tree s); sc_env := sc_env s; sc_best := sc_best s; sc_stop := sc_stop s |} ->
  fit_step M c t0' e0 = Ok (rebudget b (fst (fst b0)), snd (fst b0), snd b0).
Proof.
  intros H ES t0' s' ES' ->. unfold fit_step in *. rewrite ES in H. rewrite ES'. cbn [rbind sc_tree sc_env sc_best] in *. destruct (sc_best s) as [[[pos id] x]|].
  - destruct (xlt x (Fin (tc_min_imp c))).
    + rewrite split_budget. destruct (node_split M c (sc_tree s) id (sc_env s)) as [[t1 e1]|]; cbn [rbind fst snd] in *; [|discriminate H]. cbn [inc_splits rebudget t_nodes] in *. destruct (nth_res (t_nodes t1) id) as [nd|]; cbn [rbind] in *; [|discriminate H].
      match type of H with rbind (get_depth ?u) _ = _ => match goal with |- rbind (get_depth ?u') _ = _ => assert (U : u' = rebudget b u) by reflexivity; rewrite U; change (get_depth (rebudget b u)) with (get_depth u); destruct (get_depth u); cbn [rbind] in *; [|discriminate H] end end.
      apply ok_inv in H. subst b0. reflexivity.
    + cbn [rbind] in *. change (get_depth (rebudget b (sc_tree s))) with (get_depth (sc_tree s)). destruct (get_depth (sc_tree s)); cbn [rbind] in *; [|discriminate H]. apply ok_inv in H. subst b0. reflexivity.
  - cbn [rbind] in *. change (get_depth (rebudget b (sc_tree s))) with (get_depth (sc_tree s)). destruct (get_depth (sc_tree s)); cbn [rbind] in *; [|discriminate H]. apply ok_inv in H. subst b0. reflexivity.
Qed.

Lemma scan_broke z pl z1 : exhausted (t_budget (sc_tree z)) = true -> scan_leaf M c z pl = Ok z1 -> t_queries (sc_tree z1) = t_queries (sc_tree z) /\ t_budget (sc_tree z1) = t_budget (sc_tree z).
Proof.
  intros X H. unfold scan_leaf in H. destruct (sc_stop z); [apply ok_inv in H; now subst|]. destruct pl as [pos id]. apply rbind_ok in H. destruct H as [nd [E1 H]]. apply rbind_ok in H. destruct H as [ok [E2 H]].
  destruct ok; cbn [negb] in H; [|apply ok_inv in H; subst; auto].
  change (match t_budget (sc_tree z) with None => false | Some b => (b <=? 0)%Z end) with (exhausted (t_budget (sc_tree z))) in H. rewrite X in H. apply ok_inv in H. now subst.
Qed.
Lemma scans_broke l : forall z z1, exhausted (t_budget (sc_tree z)) = true -> foldM (scan_leaf M c) z l = Ok z1 -> t_queries (sc_tree z1) = t_queries (sc_tree z) /\ t_budget (sc_tree z1) = t_budget (sc_tree z).
Proof.
  induction l as [|pl l IH]; intros z z1 X H; cbn [foldM] in H; [apply ok_inv in H; now subst|]. apply rbind_ok in H. destruct H as [z2 [E H]].
  destruct (scan_broke _ _ _ X E) as [E1 E2]. rewrite <- E2 in X. destruct (IH _ _ X H) as [E3 E4]. split; congruence.
Qed.
Section Loop.
Context (D : list (list Qc)) (L : list Qc) (FS I0 : list nat) (b0 b0' : option Z).
Lemma exhausted_queries fuel t e t' e' : tinv M c D L FS I0 b0 t -> exhausted (t_budget t) = true -> fit_loop M c fuel t e = Ok (t', e') -> t_queries t' = t_queries t /\ t_splits t' = t_splits t /\ t_budget t' = t_budget t.
Proof.
  intros T X H. destruct fuel as [|fuel]; cbn [fit_loop] in H; apply rbind_ok in H; destruct H as [stop [EF H]]; destruct stop; try discriminate H; try (apply ok_pair_inv in H; destruct H as [<- _]; auto).
  apply rbind_ok in H. destruct H as [[[t1 e1] cont] [ES H]]. destruct (scan_run _ _ _ _ _ ES) as [s SC]. destruct (step_changes _ _ _ _ _ _ _ _ _ _ _ T SC ES) as (QB & QQ & B & C).
  assert (SN : sc_best s = None) by (eapply exhausted_scan; [| |exact SC]; auto). rewrite SN in B. subst cont. apply ok_pair_inv in H. destruct H as [<- _].
  destruct (fit_step_tinv _ _ _ _ _ _ _ _ _ _ _ _ T ES) as (_ & _ & _ & SP). rewrite (SP eq_refl), QB, QQ.
  destruct (scans_broke _ {| sc_tree := t; sc_env := e; sc_best := None; sc_stop := false |} s X SC) as [-> ->]. auto.
Qed.

Definition behind (t t' : tree) : Prop :=
  (changes (t_nodes t') <= changes (t_nodes t))%Qc /\ t_splits t <= t_splits t' /\ t_queries t <= t_queries t' /\ ((exists b, t' = rebudget b t) \/ exhausted (t_budget t) = true).
Lemma loop_budget fuel : forall t e b' t1 e1 t2 e2, tinv M c D L FS I0 b0 t -> tinv M c D L FS I0 b0' (rebudget b' t) -> budget_le (t_budget t) b' ->
  fit_loop M c fuel t e = Ok (t1, e1) -> fit_loop M c fuel (rebudget b' t) e = Ok (t2, e2) ->
  (forall id nd, node_at t2 id nd -> nd_left nd <> None -> exists q, nd_red nd = Some (Fin q)) -> behind t1 t2.
Proof.
  induction fuel as [|fuel IH]; intros t e b' t1 e1 t2 e2 T T' LE H H' FN; cbn [fit_loop] in H, H'; cbn [rebudget t_leaves] in H'; apply rbind_ok in H; destruct H as [stop [EF H]]; rewrite EF in H'; cbn [rbind] in H'; destruct stop.
  - apply ok_pair_inv in H. destruct H as [<- _]. apply ok_pair_inv in H'. destruct H' as [<- _]. split; [apply Qcle_refl|]. cbn. ands; auto. left. eexists. reflexivity.
  - discriminate H.
  - apply ok_pair_inv in H. destruct H as [<- _]. apply ok_pair_inv in H'. destruct H' as [<- _]. split; [apply Qcle_refl|]. cbn. ands; auto. left. eexists. reflexivity.
  - apply rbind_ok in H. destruct H as [[[u1 f1] k1] [ES H]]. apply rbind_ok in H'. destruct H' as [[[u2 f2] k2] [ES' H']].
    destruct (scan_run _ _ _ _ _ ES) as [s SC]. destruct (scan_run _ _ _ _ _ ES') as [s' SC']. pose proof SC' as SC2. cbn [rebudget t_leaves] in SC2.
    destruct (scans_sim (combine (seq 0 (length (t_leaves t))) (t_leaves t)) {| sc_tree := t; sc_env := e; sc_best := None; sc_stop := false |} {| sc_tree := rebudget b' t; sc_env := e; sc_best := None; sc_stop := false |} s s') as [S|(S1 & S2 & S3)]; [exists b'; split; auto|exact SC|exact SC2| |].
    + destruct S as (b2 & ES2 & LE2). pose proof (finish_sim s t e _ b2 ES SC (rebudget b' t) s' SC' ES2) as FS2. rewrite ES' in FS2. cbn [fst snd] in FS2. apply ok_pair_inv in FS2. destruct FS2 as [FS2 ->]. apply pair_equal_spec in FS2. destruct FS2 as [-> ->].
      destruct (step_changes _ _ _ _ _ _ _ _ _ _ _ T SC ES) as (QB & _). destruct k1.
      * apply (IH u1 f1 b2 t1 e1 t2 e2); auto; [apply (fit_step_tinv _ _ _ _ _ _ _ _ _ _ _ _ T ES)|apply (fit_step_tinv _ _ _ _ _ _ _ _ _ _ _ _ T' ES')|rewrite QB; exact LE2].
      * apply ok_pair_inv in H. destruct H as [<- _]. apply ok_pair_inv in H'. destruct H' as [<- _]. split; [apply Qcle_refl|]. cbn. ands; auto. left. eexists. reflexivity.
    + destruct (step_changes _ _ _ _ _ _ _ _ _ _ _ T SC ES) as (QB & QQ & B & C). destruct (step_changes _ _ _ _ _ _ _ _ _ _ _ T' SC' ES') as (QB' & QQ' & B' & C'). cbn [rebudget t_nodes] in B', C'.
      destruct (fit_step_tinv _ _ _ _ _ _ _ _ _ _ _ _ T ES) as (TU & _ & P1 & P2). destruct (fit_step_tinv _ _ _ _ _ _ _ _ _ _ _ _ T' ES') as (TU' & _ & P1' & P2'). cbn [rebudget t_splits] in P1', P2'.
      assert (X1 : exhausted (t_budget u1) = true) by now rewrite QB.
      assert (R2 : (changes (t_nodes t2) <= changes (t_nodes u2))%Qc /\ t_splits u2 <= t_splits t2 /\ t_queries u2 <= t_queries t2 /\ tle u2 t2).
      { destruct k2; [|apply ok_pair_inv in H'; destruct H' as [<- _]; ands; auto; [apply Qcle_refl|apply tle_refl]]. split; [eapply loop_changes; eauto|]. destruct (loop_tinv _ _ _ _ _ _ _ _ _ _ _ _ TU' H') as [_ [LS _]]. destruct (loop_tle _ _ _ _ _ _ _ _ _ _ _ _ TU' H') as [TL TQ]. auto. }
      destruct R2 as (R2 & R3 & R4 & R5).
      assert (R1 : changes (t_nodes t1) = changes (t_nodes u1) /\ t_splits t1 = t_splits u1 /\ t_queries t1 = t_queries u1 /\ t_budget t1 = t_budget u1).
      { destruct k1; [|apply ok_pair_inv in H; destruct H as [<- _]; auto]. split; [eapply exhausted_loop; eauto|]. destruct (exhausted_queries _ _ _ _ _ TU X1 H) as (-> & -> & ->). auto. }
      destruct R1 as (R6 & R7 & R8 & R9). unfold behind. rewrite R6, R7, R8, R9.
      assert (K : (changes (t_nodes u2) <= changes (t_nodes u1))%Qc /\ t_splits u1 <= t_splits u2).
      { destruct (sc_best s) as [[[pos id] x]|]; cbn [at_least] in S2.
        2:{ subst k1. rewrite (C eq_refl), (P2 eq_refl). destruct k2; [|rewrite (C' eq_refl), (P2' eq_refl); split; auto; apply Qcle_refl]. rewrite (P1' eq_refl). split; [|lia].
            destruct (sc_best s') as [[[pos' id'] y]|]; [|discriminate B']. destruct B' as (Y1 & _ & Y3). destruct (Y3 eq_refl) as [-> _]. pose proof (rec_neg y Y1). qlra. }
        destruct (sc_best s') as [[[pos' id'] y]|]; [|contradiction]. destruct B as (B1 & B2 & B3). destruct B' as (Y1 & Y2 & Y3). destruct k1.
        2:{ rewrite (C eq_refl), (P2 eq_refl). destruct k2; [|rewrite (C' eq_refl), (P2' eq_refl); split; auto; apply Qcle_refl]. rewrite (P1' eq_refl). split; [|lia]. destruct (Y3 eq_refl) as [-> _]. pose proof (rec_neg y Y1). qlra. }
        assert (K2 : k2 = true). { rewrite Y2. symmetry in B2. destruct x as [x| | |], y as [y| | |]; cbn in *; try discriminate; auto. apply qlt_false in S2. apply qlt_spec in B2. apply qlt_spec. qlra. }
        subst k2. rewrite K2 in *. rewrite (P1 eq_refl), (P1' eq_refl). split; [|lia]. destruct (B3 eq_refl) as [-> _]. destruct (Y3 eq_refl) as [-> (nd & A & LF & RD)].
        destruct (R5 _ _ A) as (nd' & A' & N). rewrite (ne_split _ _ N LF) in A'. destruct (FN _ _ A' LF) as [q Q]. assert (YQ : y = Fin q) by congruence. subst y. cbn [rec_of].
        destruct x as [x| | |]; cbn in B1, S2 |- *; try discriminate. apply qlt_false in S2. qlra. }
      destruct K as [K1 K2]. ands; [eapply Qcle_trans; eauto|lia| |auto]. rewrite QQ. rewrite QQ' in R4. lia.
Qed.
End Loop.
End Sim.

(** ** Whole fits *)
Section Fits.
Context (P : prng) (M : math) (c : tcfg) (a : targs) (W : nat) (e : env) (b b' : option Z).
Context (SV : tc_solver c = EXACT) (TR : trainable c a W) (BO : bins_ok c) (LE : budget_le b b').
Lemma train_budget x : trainable c (budgeted a x) W.
Proof. destruct TR. constructor; auto. Qed.
Lemma new_budget x y : tree_new P c (budgeted a x) e = match tree_new P c (budgeted a y) e with Ok (t, e') => Ok (rebudget x t, e') | Err k => Err k end.
Proof.
  unfold tree_new. cbn [budgeted ta_data ta_labels ta_seed ta_feats ta_idcs ta_dd ta_budget]. destruct (guard _ _); cbn [rbind]; auto. destruct (match ta_feats a with Some l => Ok l | None => _ end) as [fs|]; cbn [rbind]; auto.
  match goal with |- rbind (node_new c ?t0 None ?i 0 1%Qc ?n ?ev) _ = match rbind (node_new c ?t1 None _ _ _ _ _) _ with _ => _ end => change (node_new c t0 None i 0 1%Qc n ev) with (node_new c t1 None i 0 1%Qc n ev); destruct (node_new c t1 None i 0 1%Qc n ev) as [[nd e1]|]; cbn [rbind]; auto end.
Qed.
Lemma rebudget_id t : rebudget (t_budget t) t = t.
Proof. destruct t. reflexivity. Qed.
Lemma budget_course t0 e0 t e1 : tree_fit M c t0 (None, None) e0 = Ok (t, e1) -> exists d, forall x,
  tree_fit M c (rebudget x t0) (None, None) e0 = fit_loop M c (S (leaf_rows (start_tree t0 d))) (rebudget x (start_tree t0 d)) e0.
Proof.
  unfold tree_fit. cbn [rbind]. intros H. apply rbind_ok in H. destruct H as [t1 [E1 H]]. destruct (tc_splitter c) eqn:SP; try discriminate. clear H.
  match type of E1 with (if ?b then _ else _) = _ => destruct b end.
  - apply rbind_ok in E1. destruct E1 as [d [E1 _]]. exists (Some d). intros x. cbn [rebudget t_data]. rewrite E1. reflexivity.
  - exists (t_dd t0). intros x. reflexivity.
Qed.
Lemma fits_behind t t' : built P M c (budgeted a b) e t -> built P M c (budgeted a b') e t' -> behind t t'.
Proof.
  intros HB (t0' & e0' & e1' & N' & F'). pose proof (train_budget b') as TR'.
  assert (FN : forall id nd, node_at t' id nd -> nd_left nd <> None -> exists q, nd_red nd = Some (Fin q)).
  { intros id nd A LF. assert (HB' : built P M c (budgeted a b') e t') by (exists t0', e0', e1'; auto). destruct (split_node P M c _ e t' HB' (tr_rows _ _ _ TR') id nd A LF) as (l & r & s & v & I1 & I2 & _).
    destruct (split_share P M c _ e t' W TR' HB' SV BO id nd l r A I1 I2) as [_ NG]. unfold recorded in NG. destruct (nd_red nd) as [[q| | |]|]; eauto; exfalso; eapply Qclt_not_eq; eauto. }
  destruct HB as (t0 & e0 & e1 & N & F). pose proof (new_budget b' b) as NB. rewrite N in NB. rewrite N' in NB. apply ok_pair_inv in NB. destruct NB as [-> ->].
  destruct (budget_course t0 e0 t e1 F) as [d K]. pose proof (K (t_budget t0)) as K0. rewrite rebudget_id in K0. rewrite K0 in F. replace (rebudget (t_budget t0) (start_tree t0 d)) with (start_tree t0 d) in F by reflexivity. rewrite (K b') in F'.
  destruct (start_inv M P c _ e t0 e0 d N (tr_rows _ _ _ (train_budget b))) as [I S]. destruct (start_inv M P c _ e _ e0 d N' (tr_rows _ _ _ TR')) as [I' S'].
  assert (TB : t_budget (start_tree t0 d) = b). { destruct (new_spec _ _ _ _ _ _ N) as (nd & e2 & _ & -> & _). reflexivity. }
  eapply (loop_budget M c SV _ _ _ _ _ _ _ (start_tree t0 d)); [exact I|exact I'|rewrite TB; exact LE|exact F|exact F'|exact FN].
Qed.
Lemma impurity_budget x t : leaf_impurity M c (budgeted a x) t = leaf_impurity M c a t.
Proof. reflexivity. Qed.
Theorem larger_budget t t' : built P M c (budgeted a b) e t -> built P M c (budgeted a b') e t' ->
  (leaf_impurity M c a t' <= leaf_impurity M c a t)%Qc /\ length (t_leaves t) <= length (t_leaves t') /\ t_queries t <= t_queries t'.
Proof.
  intros B B'. destruct (fits_behind t t' B B') as (C & S & Q & _). pose proof (impurity_accounts P M c _ e t W (train_budget b) B SV BO) as I1. pose proof (impurity_accounts P M c _ e t' W (train_budget b') B' SV BO) as I2.
  rewrite impurity_budget in I1, I2. rewrite I1, I2. change (train_labels (budgeted a b)) with (train_labels a). change (train_labels (budgeted a b')) with (train_labels a). rewrite !changes_split.
  split; [qlra|]. pose proof (built_tinv P M c _ e t B (tr_rows _ _ _ TR)) as T. pose proof (built_tinv P M c _ e t' B' (tr_rows _ _ _ TR)) as T'.
  destruct (ti_splits _ _ _ _ _ _ _ _ T) as [-> _]. destruct (ti_splits _ _ _ _ _ _ _ _ T') as [-> _]. split; lia.
Qed.
Theorem larger_budget_error t t' ps s ps' s' : built P M c (budgeted a b) e t -> built P M c (budgeted a b') e t' -> tc_class c = false ->
  tree_predict_batch c t (train_points a) = Ok (ps, s) -> tree_predict_batch c t' (train_points a) = Ok (ps', s') ->
  (sq_error (train_labels a) (map number_of ps') <= sq_error (train_labels a) (map number_of ps))%Qc.
Proof.
  intros B B' IC H H'. destruct (fits_behind t t' B B') as (C & _). rewrite <- !changes_split in C.
  pose proof (training_accounts P M c _ e t W (train_budget b) B SV BO ps s IC H) as E1. pose proof (training_accounts P M c _ e t' W (train_budget b') B' SV BO ps' s' IC H') as E2.
  change (train_labels (budgeted a b)) with (train_labels a) in E1. change (train_rows (budgeted a b)) with (train_rows a) in E1. change (train_labels (budgeted a b')) with (train_labels a) in E2. change (train_rows (budgeted a b')) with (train_rows a) in E2.
  rewrite E1, E2. pose proof (Nq_nonneg (length (train_rows a))) as NN. change rat with Nq. set (n := Nq _) in *. set (u := split_changes t) in *. set (w := split_changes t') in *. set (vv := variance _). assert (Z : (0 <= n * (u - w))%Qc) by (apply qmult_le_0; [exact NN|clear - C; qlra]). assert (ZE : (n * (vv + u) = n * (vv + w) + n * (u - w))%Qc) by ring. rewrite ZE. clear - Z. qlra.
Qed.
Theorem enough_budget t t' : built P M c (budgeted a b) e t -> built P M c (budgeted a b') e t' -> pays_for b (t_queries t') -> same_but_budget t t'.
Proof.
  intros B B' PF. destruct (fits_behind t t' B B') as (_ & _ & Q & [[x ->]|X]); [unfold same_but_budget; cbn; auto|]. exfalso.
  pose proof (ti_budget _ _ _ _ _ _ _ _ (built_tinv P M c _ e t B (tr_rows _ _ _ TR))) as TB. cbn [budgeted ta_budget] in TB. rewrite TB in X. destruct b as [z|]; cbn in *; [|discriminate]. apply Z.leb_le in X. lia.
Qed.
End Fits.

(** ** A leaf limit and a budget prune *)
Section Limits.
Context (P : prng) (M : math) (c : tcfg) (a : targs) (W : nat) (m : option nat) (b : option Z).
Notation c1 := (with_leaf_limit c m).
Notation a1 := (budgeted a b).
Notation c2 := (with_leaf_limit c None).
Notation a2 := (budgeted a None).
Context (SA : searches_all c) (TR1 : trainable c1 a1 W) (TR2 : trainable c2 a2 W).
Lemma below_pruned e t : built P M c1 a1 e t -> forall k id nd sh', length (t_nodes t) - id <= k -> node_at t id nd -> recursive M c2 a2 (nd_depth nd) (nd_idcs nd) sh' -> exists sh, has_shape t id sh /\ pruned sh sh'.
Proof.
  intros B. pose proof (built_tinv P M c1 a1 e t B (tr_rows _ _ _ TR1)) as T. destruct SA as (SV & NR & BO & FS).
  induction k as [|k IH]; intros id nd sh' LK A R; assert (IL : id < length (t_nodes t)) by (apply nth_error_Some; unfold node_at in A; congruence); [lia|].
  destruct (nd_left nd) as [l0|] eqn:LF.
  - destruct (inner_cut P M c1 a1 e t W TR1 B id nd SV BO FS A) as (l & r & nl & nr & s & v & E1 & E2 & G1 & G2 & A1 & A2 & D1 & D2 & F1 & F2 & R1 & R2 & MS & BC & WO); [congruence|].
    inversion R as [d I s0 v0 sl sr K1 K2 K3 Kl Kr|d I K]; subst.
    + destruct (best_cut_unique M c2 a2 NR _ _ _ _ _ K2 BC) as [-> ->].
      destruct (IH l nl sl) as (xl & X1 & X2); [lia|exact A1|rewrite D1, R1; exact Kl|]. destruct (IH r nr sr) as (xr & X3 & X4); [lia|exact A2|rewrite D2, R2; exact Kr|].
      exists (Fork (nd_idcs nd) s0 v0 xl xr). split; [eapply hs_fork; eauto|now constructor].
    + exfalso. apply K. split; [exact MS|]. exists s, v. split; [exact BC|exact WO].
  - exists (Leaf (nd_idcs nd)). destruct (ti_leaf _ _ _ _ _ _ _ _ T _ _ A LF) as [RN _]. split; [now constructor|]. rewrite <- (recursive_rows _ _ _ _ _ _ R). constructor.
Qed.
Theorem limits_prune e e' t t' : built P M c1 a1 e t -> built P M c2 a2 e' t' ->
  exists sh sh', has_shape t 0 sh /\ has_shape t' 0 sh' /\ pruned sh sh' /\ finer t t' /\ length (t_leaves t) <= length (t_leaves t').
Proof.
  intros B B'. destruct SA as (SV & NR & BO & FS). assert (EX : exhaustive c2 a2) by (repeat split; auto).
  destruct (fitted_recursive P M c2 a2 e' t' W TR2 B' EX) as (sh' & S2 & R2).
  destruct (ti_root _ _ _ _ _ _ _ _ (built_tinv P M c1 a1 e t B (tr_rows _ _ _ TR1))) as [r [Rt [Ri [Rd _]]]].
  destruct (below_pruned e t B _ 0 r sh' (le_n _) Rt) as (sh & S1 & PR); [rewrite Rd, Ri; exact R2|].
  destruct (pruned_leaves _ _ _ _ _ _ _ R2 PR) as [L1 L2].
  pose proof (shape_leaves P M c1 a1 e t W TR1 B sh S1) as P1. pose proof (shape_leaves P M c2 a2 e' t' W TR2 B' sh' S2) as P2.
  exists sh, sh'. ands; auto.
  - intros leaf' HL. assert (X : In (node_rows t' leaf') (leaf_sets sh')) by (eapply Permutation_in; [exact P2|]; now apply in_map).
    destruct (L1 _ X) as [J [J1 J2]]. apply Permutation_sym in P1. apply (Permutation_in _ P1) in J1. apply in_map_iff in J1. destruct J1 as [leaf [<- J3]]. eauto.
  - apply Permutation_length in P1, P2. rewrite map_length in P1, P2. lia.
Qed.
Theorem limits_error e e' t t' ps s ps' s' : built P M c1 a1 e t -> built P M c2 a2 e' t' ->
  tree_predict_batch c1 t (train_points a) = Ok (ps, s) -> tree_predict_batch c2 t' (train_points a) = Ok (ps', s') ->
  (tc_class c = false -> (sq_error (train_labels a) (map number_of ps') <= sq_error (train_labels a) (map number_of ps))%Qc) /\
  (tc_class c = true -> good_classes (tc_classes c) -> hits (train_labels a) (map label_of ps) <= hits (train_labels a) (map label_of ps')).
Proof.
  intros B B' H H'. destruct (limits_prune e e' t t' B B') as (_ & _ & _ & _ & _ & F & _). destruct (batch_values P M c1 a1 e t B (tr_rows _ _ _ TR1) _ _ H) as (q & -> & Q).
  change (train_rows a1) with (train_rows a) in *. rewrite !map_map. split.
  - intros IC. apply (proj1 (training_error P M c2 a2 e' t' B' (tr_rows _ _ _ TR2) _ _ IC H')). eapply finer_leafwise; [exact F|]. intros leaf i j IL Ii Ij. f_equal. eapply (answers_leafwise P M c1 a1); eauto. exact (tr_rows _ _ _ TR1).
  - intros IC G. apply (proj1 (training_hits P M c2 a2 e' t' B' (tr_rows _ _ _ TR2) _ _ IC G H')). eapply finer_leafwise; [exact F|]. intros leaf i j IL Ii Ij. f_equal. eapply (answers_leafwise P M c1 a1); eauto. exact (tr_rows _ _ _ TR1).
Qed.
End Limits.

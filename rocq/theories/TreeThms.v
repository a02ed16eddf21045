(** Consequences of the fitting invariant. *)
From Coq Require Import List Arith Bool ZArith QArith Qcanon Lia Permutation.
From Verif Require Import Base Num Rng Histogram Utils Criteria Solvers Tree Spec SolverSpec TreeSpec NumFacts ListFacts HistFacts DrawFacts TreeFacts CountFacts.
Import ListNotations.
Local Open Scope nat_scope.

(** ** The constructor *)
Definition start_tree (t : tree) (d : option ddict) : tree :=
  {| t_data := t_data t; t_labels := t_labels t; t_n := t_n t; t_dd := d; t_feats := t_feats t;
     t_nodes := t_nodes t; t_leaves := t_leaves t ++ [0]; t_budget := t_budget t; t_queries := t_queries t;
     t_splits := t_splits t; t_depth := t_depth t |}.

Lemma new_spec P c a e t e' : tree_new P c a e = Ok (t, e') ->
  exists nd e0, node_new c {| t_data := ta_data a; t_labels := ta_labels a; t_n := length (ta_labels a); t_dd := ta_dd a;
               t_feats := train_feats a; t_nodes := []; t_leaves := []; t_budget := ta_budget a;
               t_queries := 0; t_splits := 0; t_depth := 1 |} None (train_rows a) 0 1%Qc (tc_nb c) e0 = Ok (nd, e') /\
    t = {| t_data := ta_data a; t_labels := ta_labels a; t_n := length (ta_labels a); t_dd := ta_dd a;
               t_feats := train_feats a; t_nodes := [nd]; t_leaves := []; t_budget := ta_budget a;
               t_queries := 0; t_splits := 0; t_depth := 1 |} /\ length (ta_data a) = length (ta_labels a).
Proof.
  unfold tree_new. intros H. apply rbind_ok in H. destruct H as [[] [G H]]. apply guard_ok, Nat.eqb_eq in G.
  apply rbind_ok in H. destruct H as [feats [EF H]]. apply rbind_ok in H. destruct H as [[nd e1] [EN H]]. cbn [fst snd] in H.
  apply ok_pair_inv in H. destruct H as [<- <-].
  assert (feats = train_feats a).
  { unfold train_feats. destruct (ta_feats a); [now injection EF as <-|]. apply rbind_ok in EF. destruct EF as [r0 [E0 EF]].
    apply nth_res_ok in E0. injection EF as <-. rewrite (nth_error_nth _ _ _ E0). reflexivity. }
  subst feats. exists nd, (set_gen (set_seed P (ta_seed a) e) (seed_gen P (ta_seed a))). split; [exact EN|]. split; auto.
Qed.

Lemma start_inv M P c a e t e' d : tree_new P c a e = Ok (t, e') -> train_rows a <> [] ->
  tinv M c (ta_data a) (ta_labels a) (train_feats a) (train_rows a) (ta_budget a) (start_tree t d) /\
  t_splits (start_tree t d) = 0.
Proof.
  intros H NE. destruct (new_spec _ _ _ _ _ _ H) as (nd & e0 & EN & -> & _). split; [|reflexivity].
  assert (NZ : 0 < length (train_rows a)) by (destruct (train_rows a); [contradiction|cbn; lia]).
  edestruct (node_new_ok M c (ta_data a) (ta_labels a) (train_feats a) (train_rows a)) as (N & I1 & I2 & I3 & I4 & I5 & I6 & I7 & _); [| | |exact EN|..]; auto using incl_refl.
  { unfold Qcdiv. symmetry. apply Qcmult_inv_r. now apply Nq_neq0. }
  { unfold within_depth. destruct (tc_max_depth c); auto. lia. }
  assert (AT : forall id x, nth_error [nd] id = Some x -> id = 0 /\ x = nd).
  { intros [|[|id]] x E; cbn in E; try discriminate. injection E as <-. auto. }
  constructor; unfold start_tree; cbn [t_data t_labels t_feats t_nodes t_leaves t_budget t_queries t_splits]; auto.
  - exists nd. unfold node_at. cbn. auto.
  - intros id x E. apply AT in E. destruct E as [_ ->]. auto.
  - intros id x E. apply AT in E. destruct E as [_ ->]. auto.
  - intros id x E. apply AT in E. destruct E as [_ ->]. rewrite I4. congruence.
  - intros id x E. apply AT in E. destruct E as [-> _]. lia.
  - intros id. cbn. split.
    + intros [<-|[]]. exists nd. split; [reflexivity|auto].
    + intros [x [E _]]. apply AT in E. destruct E as [-> _]. auto.
  - cbn. repeat constructor; auto.
  - cbn. unfold node_rows. cbn. rewrite I1, app_nil_r. apply Permutation_refl.
  - cbn. rewrite I7. reflexivity.
  - destruct (ta_budget a); cbn; auto. f_equal. lia.
Qed.

Lemma fit_spec M c t0 e0 t e : tree_fit M c t0 (None, None) e0 = Ok (t, e) ->
  exists d fuel, fit_loop M c fuel (start_tree t0 d) e0 = Ok (t, e).
Proof.
  unfold tree_fit. cbn [rbind]. intros H. apply rbind_ok in H. destruct H as [t1 [E1 H]].
  destruct (tc_splitter c); try discriminate.
  match type of E1 with (if ?b then _ else _) = _ => destruct b end.
  - apply rbind_ok in E1. destruct E1 as [d [_ E1]]. injection E1 as <-. exists (Some d). eexists. exact H.
  - injection E1 as <-. exists (t_dd t0). eexists. exact H.
Qed.

Lemma Forall2_nth' {A B} (R : A -> B -> Prop) l l' i b : Forall2 R l l' -> nth_error l' i = Some b -> exists a, nth_error l i = Some a /\ R a b.
Proof. intros F. revert i. induction F; intros [|i] E; cbn in *; try discriminate; [injection E as <-; eauto|eauto]. Qed.
Lemma Forall2_nth {A B} (R : A -> B -> Prop) l l' i a : Forall2 R l l' -> nth_error l i = Some a -> exists b, nth_error l' i = Some b /\ R a b.
Proof. intros F. revert i. induction F; intros [|i] E; cbn in *; try discriminate; [injection E as <-; eauto|eauto]. Qed.
Lemma Forall2_set {A B} (R : A -> B -> Prop) l l' i b a' : Forall2 R l l' -> nth_error l i = Some a' -> R a' b -> Forall2 R l (set_nth i b l').
Proof. intros F. revert i. induction F; intros [|i] E H'; cbn in *; try discriminate; constructor; auto; congruence. Qed.

Section Fitted.
Context (P : prng) (M : math) (c : tcfg) (a : targs) (e : env) (t : tree).
Context (HB : built P M c a e t) (NE : train_rows a <> []).
Notation D := (ta_data a).
Notation L := (ta_labels a).
Notation inv := (tinv M c D L (train_feats a) (train_rows a) (ta_budget a)).

Lemma built_loop : exists t0 e0 d fuel e1, tree_new P c a e = Ok (t0, e0) /\ fit_loop M c fuel (start_tree t0 d) e0 = Ok (t, e1) /\
  inv (start_tree t0 d) /\ t_splits (start_tree t0 d) = 0.
Proof.
  destruct HB as (t0 & e0 & e1 & H1 & H2). destruct (fit_spec _ _ _ _ _ _ H2) as [d [fuel H3]].
  destruct (start_inv M P c a e t0 e0 d H1 NE) as [I S]. exists t0, e0, d, fuel, e1. auto.
Qed.

Lemma built_tinv : inv t.
Proof. destruct built_loop as (t0 & e0 & d & fuel & e1 & _ & H & I & _). eapply loop_tinv; eauto. Qed.

(** *** C20 *)
Lemma fitted_partition :
  Permutation (flat_map (node_rows t) (t_leaves t)) (train_rows a) /\ NoDup (t_leaves t) /\
  (forall id, In id (t_leaves t) -> node_rows t id <> []) /\
  (forall id, In id (t_leaves t) <-> exists nd, node_at t id nd /\ nd_left nd = None /\ nd_right nd = None).
Proof.
  pose proof built_tinv as T. split; [apply T|]. split; [apply T|]. split.
  - intros id I. apply (ti_leaves _ _ _ _ _ _ _ _ T) in I. destruct I as [nd [A _]]. unfold node_rows. unfold node_at in A. rewrite A.
    eapply no_ne, ti_node; eauto.
  - intros id. rewrite (ti_leaves _ _ _ _ _ _ _ _ T). split; intros [nd [A H]]; exists nd; split; auto; [|tauto].
    split; auto. eapply ti_leaf; eauto.
Qed.

Lemma rows_of id nd : node_at t id nd -> node_rows t id = nd_idcs nd.
Proof. unfold node_at, node_rows. now intros ->. Qed.

(** A split node and what its children hold. *)
Lemma split_node id nd : node_at t id nd -> nd_left nd <> None -> exists l r s v,
  nd_left nd = Some l /\ nd_right nd = Some r /\ id < l /\ id < r /\ l <> r /\ nd_sf nd = Some s /\ nd_sv nd = Some v /\
  (exists nl nr, node_at t l nl /\ node_at t r nr) /\ In s (nd_feats nd) /\
  node_rows t l = filter (fun i => qle (cell D i s) v) (node_rows t id) /\
  node_rows t r = filter (fun i => qlt v (cell D i s)) (node_rows t id).
Proof.
  intros A H. pose proof built_tinv as T.
  destruct (ti_inner _ _ _ _ _ _ _ _ T _ _ A H) as (l & r & nl & nr & s & v & x & I1 & I2 & I3 & I4 & I4' & I5 & I6 & I7 & I8 & I9 & I10 & I11 & I12 & I13 & I14 & I15 & _).
  exists l, r, s, v. ands; auto.
  - exists nl, nr. auto.
  - destruct (no_solved _ _ _ _ _ _ _ (ti_node _ _ _ _ _ _ _ _ T _ _ A) s I11) as (f & v' & x' & _ & _ & _ & SS).
    destruct SS as (? & ? & ? & ? & ? & ? & ? & _ & _ & _ & _ & F & _). eapply nth_error_In; eauto.
  - rewrite (rows_of _ _ I5), (rows_of _ _ A). auto.
  - rewrite (rows_of _ _ I6), (rows_of _ _ A). auto.
Qed.

Lemma cell_nth i s : s < length (nth i D []) -> nth_error (nth i D []) s = Some (cell D i s).
Proof. intros H. unfold cell. now apply nth_error_nth'. Qed.

(** *** C21 *)
Lemma row_lands_up i leaf : forall id, In i (node_rows t id) -> lands t (nth i D []) id leaf -> lands t (nth i D []) 0 leaf.
Proof.
  pose proof built_tinv as T. intros id. induction id as [id IH] using lt_wf_ind. intros I LD.
  destruct (Nat.eq_dec id 0) as [->|NZ]; auto.
  assert (A : exists nd, node_at t id nd). { unfold node_rows in I. unfold node_at. destruct (nth_error (t_nodes t) id); [eauto|contradiction]. }
  destruct A as [nd A]. destruct (ti_parent _ _ _ _ _ _ _ _ T _ _ A) as (p & pn & P1 & P2 & P3 & P4); [lia|].
  assert (NN : nd_left pn <> None).
  { intros Z. destruct (ti_leaf _ _ _ _ _ _ _ _ T _ _ P3 Z). destruct P4; congruence. }
  destruct (split_node _ _ P3 NN) as (l & r & s & v & S1 & S2 & S3 & S4 & S4' & S5 & S6 & _ & S8 & S9 & S10).
  assert (RNG : forall i, In i (node_rows t p) -> s < length (nth i D [])).
  { intros j J. rewrite (rows_of _ _ P3) in J. eapply (no_range _ _ _ _ _ _ _ (ti_node _ _ _ _ _ _ _ _ T _ _ P3)); eauto. }
  destruct P4 as [E|E].
  - assert (l = id) by congruence. subst l. rewrite S9 in I. apply filter_In in I. destruct I as [I Q]. apply qle_spec in Q.
    apply (IH p P2 I). eapply lands_left; eauto. now apply cell_nth, RNG.
  - assert (r = id) by congruence. subst r. rewrite S10 in I. apply filter_In in I. destruct I as [I Q]. apply qlt_spec in Q.
    apply (IH p P2 I). eapply lands_right; eauto. now apply cell_nth, RNG.
Qed.

Lemma fitted_rows_routed leaf i : In leaf (t_leaves t) -> In i (node_rows t leaf) -> lands t (nth i D []) 0 leaf.
Proof.
  pose proof built_tinv as T. intros IL I. apply (row_lands_up i leaf leaf I).
  apply fitted_partition in IL. destruct IL as [nd [A [E1 E2]]]. econstructor; eauto.
Qed.
Lemma fitted_row_found i : In i (train_rows a) -> exists leaf, In leaf (t_leaves t) /\ In i (node_rows t leaf) /\ lands t (nth i D []) 0 leaf.
Proof.
  intros I. destruct fitted_partition as [PM _]. apply (Permutation_in _ (Permutation_sym PM)) in I. apply in_flat_map in I.
  destruct I as [leaf [I1 I2]]. exists leaf. ands; auto. now apply fitted_rows_routed.
Qed.

(** *** C22 *)
Lemma lands_fun x id : forall l1 l2, lands t x id l1 -> lands t x id l2 -> l1 = l2.
Proof.
  intros l1 l2 H. revert l2. unfold node_at in *.
  induction H as [id nd A E1 E2|id nd l s v xv leaf A E1 E2 E3 E4 Q H IH|id nd l r s v xv leaf A E1 E1' E2 E3 E4 Q H IH]; intros l2 H2; inversion H2; subst; unfold node_at in *;
    repeat match goal with H1 : ?x = Some _, H2 : ?x = Some _ |- _ => rewrite H1 in H2; injection H2 as <- end;
    repeat match goal with H1 : ?x = Some _, H2 : ?x = None |- _ => rewrite H1 in H2; discriminate end; auto.
  - exfalso. qlra.
  - exfalso. qlra.
Qed.

Lemma lands_walk x id leaf : lands t x id leaf -> forall fuel, length (t_nodes t) <= fuel + id -> walk (t_nodes t) fuel id x = Ok leaf.
Proof.
  pose proof built_tinv as T. induction 1 as [id nd A E1 E2|id nd l s v xv leaf A E1 E2 E3 E4 Q H IH|id nd l r s v xv leaf A E1 E1' E2 E3 E4 Q H IH]; intros fuel LF.
  - destruct fuel; cbn [walk]; unfold node_at in A; unfold nth_res; rewrite A; cbn [rbind]; rewrite E1, E2; reflexivity.
  - assert (LT : id < length (t_nodes t)) by (apply nth_error_Some; unfold node_at in A; congruence).
    destruct fuel as [|fuel]; [lia|]. cbn [walk]. pose proof A as A'. unfold node_at in A. unfold nth_res at 1. rewrite A. cbn [rbind]. rewrite E1, E2, E3. cbn [opt_res rbind].
    unfold nth_res. rewrite E4. cbn [rbind]. assert (Q' : qle xv v = true) by now apply qle_spec. rewrite Q'. apply IH.
    destruct (split_node id nd A') as (l' & r' & s' & v' & S1 & S2 & S3 & _); [congruence|]. assert (l' = l) by congruence. lia.
  - assert (LT : id < length (t_nodes t)) by (apply nth_error_Some; unfold node_at in A; congruence).
    destruct fuel as [|fuel]; [lia|]. cbn [walk]. pose proof A as A'. unfold node_at in A. unfold nth_res at 1. rewrite A. cbn [rbind]. rewrite E1, E2, E3. cbn [opt_res rbind].
    unfold nth_res. rewrite E4. cbn [rbind]. assert (Q' : qle xv v = false) by now apply qle_false. rewrite Q', E1'. cbn [opt_res rbind]. apply IH.
    destruct (split_node id nd A') as (l' & r' & s' & v' & S1 & S2 & S3 & S4 & _); [congruence|]. assert (r' = r) by congruence. lia.
Qed.

Lemma walk_lands_gen x fuel : forall id leaf, walk (t_nodes t) fuel id x = Ok leaf -> lands t x id leaf.
Proof.
  induction fuel as [|fuel IH]; intros id leaf H; cbn [walk] in H; apply rbind_ok in H; destruct H as [nd [A H]]; apply nth_res_ok in A; change (node_at t id nd) in A.
  - destruct (nd_left nd) eqn:E1; [discriminate|]. destruct (nd_right nd) eqn:E2; [discriminate|]. injection H as <-. econstructor; eauto.
  - destruct (nd_left nd) as [l|] eqn:E1.
    + apply rbind_ok in H. destruct H as [f [F1 H]]. apply opt_res_ok in F1. apply rbind_ok in H. destruct H as [v [F2 H]]. apply opt_res_ok in F2.
      apply rbind_ok in H. destruct H as [xv [F3 H]]. apply nth_res_ok in F3. destruct (qle xv v) eqn:Q.
      * apply qle_spec in Q. eapply lands_left; eauto.
      * apply qle_false in Q. apply rbind_ok in H. destruct H as [r [F4 H]]. apply opt_res_ok in F4. eapply lands_right; eauto.
    + destruct (nd_right nd) eqn:E2; [discriminate|]. injection H as <-. econstructor; eauto.
Qed.

Lemma lands_exists x : (forall f, In f (train_feats a) -> f < length x) -> forall k id, length (t_nodes t) <= k + id -> id < length (t_nodes t) ->
  exists leaf, lands t x id leaf /\ In leaf (t_leaves t).
Proof.
  intros W. pose proof built_tinv as T. induction k as [|k IH]; intros id LF LT; [lia|].
  destruct (nth_error (t_nodes t) id) as [nd|] eqn:A; [|apply nth_error_None in A; lia]. change (node_at t id nd) in A.
  destruct (nd_left nd) as [l0|] eqn:E1.
  - destruct (split_node id nd A) as [l [r [s [v [S1 [S2 [S3 [S4 [S4' [S5 [S6 [[nl [nr [S7 S7']]] [S8 _]]]]]]]]]]]]]; [congruence|].
    assert (LL : l < length (t_nodes t)) by (apply nth_error_Some; unfold node_at in *; congruence).
    assert (LR : r < length (t_nodes t)) by (apply nth_error_Some; unfold node_at in *; congruence).
    assert (SF : In s (train_feats a)) by (apply (no_feats _ _ _ _ _ _ _ (ti_node _ _ _ _ _ _ _ _ T _ _ A)); exact S8).
    destruct (nth_error x s) as [xv|] eqn:EX; [|apply nth_error_None in EX; apply W in SF; lia].
    destruct (qle_lt_dec xv v) as [Q|Q].
    + destruct (IH l) as [leaf [J1 J2]]; try lia. exists leaf. split; auto. eapply lands_left; eauto.
    + destruct (IH r) as [leaf [J1 J2]]; try lia. exists leaf. split; auto. eapply lands_right; eauto.
  - destruct (ti_leaf _ _ _ _ _ _ _ _ T _ _ A E1) as [E2 _]. exists id. split; [econstructor; eauto|]. apply (ti_leaves _ _ _ _ _ _ _ _ T). eauto.
Qed.

Lemma root_lt : 0 < length (t_nodes t).
Proof. destruct (ti_root _ _ _ _ _ _ _ _ built_tinv) as [r [A _]]. apply nth_error_Some. unfold node_at in A. congruence. Qed.

Lemma fitted_routes x : (forall f, In f (train_feats a) -> f < length x) ->
  exists leaf, lands t x 0 leaf /\ In leaf (t_leaves t) /\ (forall other, lands t x 0 other -> other = leaf) /\
    walk (t_nodes t) (length (t_nodes t)) 0 x = Ok leaf.
Proof.
  intros W. destruct (lands_exists x W (length (t_nodes t)) 0) as [leaf [H1 H2]]; [lia|apply root_lt|]. exists leaf. ands; auto.
  - intros o Ho. eapply lands_fun; eauto.
  - apply lands_walk; auto. lia.
Qed.

(** *** C23 *)
Lemma node_level : forall id nd, node_at t id nd -> at_level t id (nd_depth nd).
Proof.
  pose proof built_tinv as T. intros id. induction id as [id IH] using lt_wf_ind. intros nd A.
  destruct (Nat.eq_dec id 0) as [->|NZ].
  - destruct (ti_root _ _ _ _ _ _ _ _ T) as (r & R1 & _ & R3 & _). assert (r = nd) by (unfold node_at in *; congruence). subst r. rewrite R3. econstructor; eauto.
  - destruct (ti_parent _ _ _ _ _ _ _ _ T _ _ A) as (p & pn & P1 & P2 & P3 & P4); [lia|].
    assert (NN : nd_left pn <> None).
    { intros Z. destruct (ti_leaf _ _ _ _ _ _ _ _ T _ _ P3 Z). destruct P4; congruence. }
    destruct (ti_inner _ _ _ _ _ _ _ _ T _ _ P3 NN) as (l & r & nl & nr & s & v & x & I1 & I2 & I3 & I4 & I4' & I5 & I6 & I7 & I8 & I9 & I10 & _).
    assert (E : nd_depth nd = S (nd_depth pn)).
    { destruct P4 as [E|E]; [assert (l = id) by congruence|assert (r = id) by congruence]; subst; unfold node_at in *; congruence. }
    rewrite E. eapply level_child; eauto.
Qed.

Lemma max_list_spec l : l <> [] -> In (fold_right Nat.max 0 l) l /\ forall x, In x l -> x <= fold_right Nat.max 0 l.
Proof.
  induction l as [|y l IH]; [contradiction|]. intros _. cbn [fold_right]. destruct l as [|z l].
  - cbn. rewrite Nat.max_0_r. split; auto. intros x [X|[]]; lia.
  - destruct IH as [I1 I2]; [discriminate|]. split.
    + destruct (Nat.max_spec y (fold_right Nat.max 0 (z :: l))) as [[_ ->]|[_ ->]]; [now right|now left].
    + intros x [X|X]; [lia|]. specialize (I2 x X). lia.
Qed.

Lemma depth_spec : exists d, get_depth t = Ok d /\
  (exists leaf nd, In leaf (t_leaves t) /\ node_at t leaf nd /\ nd_depth nd = d) /\
  (forall leaf nd, In leaf (t_leaves t) -> node_at t leaf nd -> nd_depth nd <= d).
Proof.
  pose proof built_tinv as T. unfold get_depth.
  destruct (mapM_total (fun id => do nd <- nth_res (t_nodes t) id; Ok (nd_depth nd)) (t_leaves t)) as [ds ED].
  { intros id I. apply (ti_leaves _ _ _ _ _ _ _ _ T) in I. destruct I as [nd [A _]]. unfold nth_res. unfold node_at in A. rewrite A. cbn. eauto. }
  rewrite ED. cbn [rbind]. assert (LE : length ds = length (t_leaves t)) by now apply mapM_length in ED.
  destruct (ti_splits _ _ _ _ _ _ _ _ T) as [LN _]. destruct ds as [|d0 ds0] eqn:EDS; [cbn in LE; lia|]. rewrite <- EDS in *.
  destruct (max_list_spec ds) as [M1 M2]; [congruence|]. exists (fold_right Nat.max 0 ds). split; auto. split.
  - apply (mapM_In _ _ _ _ ED) in M1. destruct M1 as [id [I E]]. apply rbind_ok in E. destruct E as [nd [A E]]. apply nth_res_ok in A. injection E as E.
    exists id, nd. auto.
  - intros leaf nd I A. apply M2. apply In_nth_error in I. destruct I as [k K]. destruct (mapM_nth' _ _ _ _ _ ED K) as [b [B1 B2]].
    unfold nth_res in B2. unfold node_at in A. rewrite A in B2. cbn in B2. injection B2 as ->. eapply nth_error_In; eauto.
Qed.

Lemma depth_all d : get_depth t = Ok d -> forall id nd, node_at t id nd -> nd_depth nd <= d.
Proof.
  intros ED. destruct depth_spec as [d' [E' [_ B]]]. rewrite ED in E'. injection E' as <-.
  pose proof built_tinv as T.
  assert (G : forall k id nd, length (t_nodes t) <= k + id -> node_at t id nd -> nd_depth nd <= d).
  { induction k as [|k IH]; intros id nd LF A.
    - assert (id < length (t_nodes t)) by (apply nth_error_Some; unfold node_at in A; congruence). lia.
    - destruct (nd_left nd) as [l0|] eqn:E1.
      + assert (NN : nd_left nd <> None) by congruence.
        destruct (ti_inner _ _ _ _ _ _ _ _ T _ _ A NN) as (l & r & nl & nr & s & v & x & I1 & I2 & I3 & I4 & I4' & I5 & I6 & I7 & I8 & I9 & _).
        assert (nd_depth nl <= d) by (apply (IH l); auto; lia). lia.
      + apply (B id); auto. apply (ti_leaves _ _ _ _ _ _ _ _ T). eauto. }
  intros id nd A. apply (G (length (t_nodes t)) id); auto. lia.
Qed.

Lemma fitted_depth :
  (forall id nd, node_at t id nd -> at_level t id (nd_depth nd) /\ within_depth c (nd_depth nd)) /\
  exists d, get_depth t = Ok d /\ within_depth c d /\
    (exists leaf, In leaf (t_leaves t) /\ at_level t leaf d) /\
    (forall id nd, node_at t id nd -> nd_depth nd <= d).
Proof.
  pose proof built_tinv as T. split.
  - intros id nd A. split; [now apply node_level|]. eapply no_depth, ti_node; eauto.
  - destruct depth_spec as [d [E [[leaf [nd [I [A Dd]]]] _]]]. exists d. ands; auto.
    + subst d. eapply no_depth, ti_node; eauto.
    + exists leaf. split; auto. subst d. now apply node_level.
    + now apply depth_all.
Qed.

(** *** C24 *)
Lemma fitted_leaf_limit m : tc_max_leaves c = Some m -> length (t_leaves t) <= m.
Proof. destruct built_loop as (t0 & e0 & d & fuel & e1 & _ & H & I & _). intros E. eapply loop_tinv; eauto. Qed.

(** *** C25, C26, C27 *)
Lemma fitted_inner id nd : node_at t id nd -> nd_left nd <> None ->
  tc_min_split c < length (nd_idcs nd) /\ varied (labels_at L (nd_idcs nd)) /\ below_depth c (nd_depth nd) /\
  (exists x, nd_red nd = Some x /\ xlt x (Fin 0) = true /\ xlt x (Fin (tc_min_imp c)) = true) /\
  (exists s, nd_sf nd = Some s /\ In s (train_feats a)).
Proof.
  intros A H. pose proof built_tinv as T.
  destruct (ti_inner _ _ _ _ _ _ _ _ T _ _ A H) as (l & r & nl & nr & s & v & x & I1 & I2 & I3 & I4 & I4' & I5 & I6 & I7 & I8 & I9 & I10 & I11 & I12 & I13 & I14 & I15 & I16 & I17 & E1 & E2 & E3).
  ands; auto.
  - exists x. auto.
  - exists s. split; auto. destruct (split_node _ _ A H) as (l' & r' & s' & v' & S1 & S2 & S3 & S4 & S4' & S5 & S6 & _ & S8 & _).
    assert (s' = s) by congruence. subst. apply (no_feats _ _ _ _ _ _ _ (ti_node _ _ _ _ _ _ _ _ T _ _ A)); exact S8.
Qed.

Lemma fitted_shape :
  (forall id nd, node_at t id nd -> (nd_left nd = None /\ nd_right nd = None) \/
     exists l r, nd_left nd = Some l /\ nd_right nd = Some r /\ l <> r /\
       (exists nl nr, node_at t l nl /\ node_at t r nr /\ nd_parent nl = Some id /\ nd_parent nr = Some id)) /\
  length (t_leaves t) = S (t_splits t) /\ length (t_nodes t) = S (2 * t_splits t).
Proof.
  pose proof built_tinv as T. split; [|apply T]. intros id nd A. destruct (nd_left nd) as [l0|] eqn:E.
  - right. assert (NN : nd_left nd <> None) by congruence.
    destruct (ti_inner _ _ _ _ _ _ _ _ T _ _ A NN) as (l & r & nl & nr & s & v & x & I1 & I2 & I3 & I4 & I4' & I5 & I6 & I7 & I8 & _).
    exists l, r. ands; auto; try congruence. exists nl, nr. auto.
  - left. split; auto. eapply ti_leaf; eauto.
Qed.

Lemma fitted_prop id nd : node_at t id nd ->
  nd_prop nd = (Nq (length (node_rows t id)) / Nq (length (train_rows a)))%Qc /\ nd_n nd = length (node_rows t id).
Proof.
  intros A. rewrite (rows_of _ _ A). pose proof (ti_node _ _ _ _ _ _ _ _ built_tinv _ _ A) as N. split; apply N.
Qed.

(** *** C31, C32 *)
Lemma fitted_queries : t_queries t = list_sum (map nd_queries (t_nodes t)) /\
  match ta_budget a with
  | None => t_budget t = None
  | Some b => exists r, t_budget t = Some r /\ (Z.of_nat (t_queries t) + r = b)%Z
  end.
Proof.
  pose proof built_tinv as T. split; [apply T|]. pose proof (ti_budget _ _ _ _ _ _ _ _ T) as B. destruct (ta_budget a) as [b|]; cbn in B; auto.
  eexists. split; [exact B|]. lia.
Qed.

Lemma fitted_budget b : ta_budget a = Some b -> t_queries t = 0 \/
  exists id nd, node_at t id nd /\ (Z.of_nat (t_queries t) - Z.of_nat (nd_queries nd) < b)%Z.
Proof. intros E. apply (ti_over _ _ _ _ _ _ _ _ built_tinv b E). Qed.

(** Splits are bounded by the rows. *)
Lemma leaves_le_rows t' : inv t' -> length (t_leaves t') <= length (train_rows a).
Proof.
  intros T. rewrite <- (Permutation_length (ti_perm _ _ _ _ _ _ _ _ T)).
  assert (G : forall l, (forall id, In id l -> node_rows t' id <> []) -> length l <= length (flat_map (node_rows t') l)).
  { induction l as [|id l IH]; intros H; cbn; auto. rewrite app_length. specialize (IH (fun i I => H i (or_intror I))).
    specialize (H id (or_introl eq_refl)). destruct (node_rows t' id); [contradiction|]. cbn. lia. }
  apply G. intros id I. apply (ti_leaves _ _ _ _ _ _ _ _ T) in I. destruct I as [nd [A _]]. unfold node_rows. unfold node_at in A. rewrite A.
  eapply no_ne, ti_node; eauto.
Qed.
Lemma fitted_splits : t_splits t < length (train_rows a).
Proof. pose proof (leaves_le_rows t built_tinv). destruct (ti_splits _ _ _ _ _ _ _ _ built_tinv). lia. Qed.

(** *** C28, C29, C30: predictions *)
(** A tree that differs from t only by prediction caches holding the right values. *)
Definition leaf_probs (nd : node) : list Qc := map (fun k => (Nq k / Nq (sum_nat (nd_counts nd)))%Qc) (nd_counts nd).
Record cached (nd nd' : node) : Prop := {
  ca_frame : nd' = with_preds nd (nd_probs nd') (nd_plabel nd') (nd_pval nd');
  ca_class : tc_class c = true -> forall p, nd_probs nd' = Some p ->
     p = leaf_probs nd /\ exists i l, argmax p = Ok i /\ idx_to_class (tc_classes c) i = Some l /\ nd_plabel nd' = Some l /\
       negb (sum_nat (nd_counts nd) =? 0) && qeq (qsum p) 1%Qc = true;
  ca_reg : tc_class c = false -> forall v, nd_pval nd' = Some v -> exists l, nd_labels nd = Some l /\ l <> [] /\ v = qmean l
}.
Definition cached_tree (t' : tree) : Prop :=
  t' = set_nodes t (t_nodes t') /\ Forall2 cached (t_nodes t) (t_nodes t').

Lemma with_preds_id nd : with_preds nd (nd_probs nd) (nd_plabel nd) (nd_pval nd) = nd.
Proof. destruct nd; reflexivity. Qed.
Lemma cached_self : cached_tree t.
Proof.
  split; [destruct t; reflexivity|]. pose proof built_tinv as T.
  assert (G : forall l, (forall nd, In nd l -> nd_probs nd = None /\ nd_plabel nd = None /\ nd_pval nd = None) -> Forall2 cached l l).
  { induction l as [|nd l IH]; intros H; constructor.
    - destruct (H nd (or_introl eq_refl)) as [H1 [H2 H3]]. constructor; [now rewrite with_preds_id|congruence|congruence].
    - apply IH. intros; apply H; now right. }
  apply G. intros nd I. apply In_nth_error in I. destruct I as [k K]. apply (no_caches _ _ _ _ _ _ _ (ti_node _ _ _ _ _ _ _ _ T _ _ K)).
Qed.


Lemma cached_walk ns' x fuel : Forall2 cached (t_nodes t) ns' -> forall id, walk ns' fuel id x = walk (t_nodes t) fuel id x.
Proof.
  intros F. assert (N : forall id, match nth_res (t_nodes t) id, nth_res ns' id with
     | Ok nd, Ok nd' => nd_left nd' = nd_left nd /\ nd_right nd' = nd_right nd /\ nd_sf nd' = nd_sf nd /\ nd_sv nd' = nd_sv nd
     | Err e1, Err e2 => e1 = e2 | _, _ => False end).
  { intros id. unfold nth_res. destruct (nth_error (t_nodes t) id) as [nd|] eqn:E1.
    - destruct (Forall2_nth _ _ _ _ _ F E1) as [nd' [-> [-> _ _]]]. cbn. auto.
    - destruct (nth_error ns' id) as [nd'|] eqn:E2; auto. destruct (Forall2_nth' _ _ _ _ _ F E2) as [nd [E3 _]]. congruence. }
  induction fuel as [|fuel IH]; intros id; cbn [walk]; specialize (N id); destruct (nth_res (t_nodes t) id) as [nd|], (nth_res ns' id) as [nd'|]; try contradiction; cbn [rbind]; try congruence.
  - destruct N as [-> [-> _]]. reflexivity.
  - destruct N as [-> [-> [-> ->]]]. destruct (nd_left nd); auto. destruct (nd_sf nd); auto. cbn [opt_res rbind]. destruct (nd_sv nd); auto. cbn [opt_res rbind].
    destruct (nth_res x n0); auto. cbn [rbind]. destruct (qle a0 q); auto. destruct (nd_right nd); cbn [opt_res rbind]; auto.
Qed.


(** What predict answers on a tree in that state: the answer of the fresh tree. *)
Definition fresh_answer (x : list Qc) : res pred :=
  do id <- walk (t_nodes t) (length (t_nodes t)) 0 x;
  do nd <- nth_res (t_nodes t) id;
  if tc_class c then
    do i <- argmax (leaf_probs nd);
    do l <- opt_res (idx_to_class (tc_classes c) i) KeyError;
    do _ <- guard (negb (sum_nat (nd_counts nd) =? 0) && qeq (qsum (leaf_probs nd)) 1%Qc) AssertionError;
    Ok (PClass l (leaf_probs nd))
  else
    do labels <- opt_res (nd_labels nd) AttributeError;
    do _ <- guard (negb (length labels =? 0)) Unmodelled;
    Ok (PReg (qmean labels)).

Lemma predict_cached t' x : cached_tree t' ->
  match tree_predict c t' x with
  | Ok (p, t'') => fresh_answer x = Ok p /\ cached_tree t''
  | Err er => fresh_answer x = Err er
  end.
Proof.
  intros [ET F]. unfold tree_predict, fresh_answer. rewrite (cached_walk _ x _ F).
  assert (LL : length (t_nodes t') = length (t_nodes t)) by (symmetry; eapply Forall2_len; eauto). rewrite LL.
  destruct (walk (t_nodes t) (length (t_nodes t)) 0 x) as [id|]; cbn [rbind]; auto.
  unfold nth_res. destruct (nth_error (t_nodes t) id) as [nd|] eqn:E1.
  2:{ destruct (nth_error (t_nodes t') id) as [nd'|] eqn:E2; cbn; auto. destruct (Forall2_nth' _ _ _ _ _ F E2) as [? [E3 _]]. congruence. }
  destruct (Forall2_nth _ _ _ _ _ F E1) as [nd' [E2 C]]. rewrite E2. cbn [rbind]. pose proof C as CC. destruct C as [FR CL RG].
  assert (KEEP : forall nd'', cached nd nd'' -> cached_tree (put_node t' id nd'')).
  { intros nd'' C2. split; cbn [put_node set_nodes t_nodes]; [rewrite ET; reflexivity|]. eapply Forall2_set; eauto. }
  destruct (tc_class c) eqn:IC.
  - destruct (nd_probs nd') as [p|] eqn:EP.
    + destruct (CL eq_refl p eq_refl) as [-> [i [l [A1 [A2 [A3 A4]]]]]]. rewrite A3. cbn [opt_res rbind]. rewrite A1. cbn [rbind]. rewrite A2. cbn [opt_res rbind].
      rewrite A4. cbn [guard rbind]. split; auto. split; auto.
    + assert (EC : nd_counts nd' = nd_counts nd) by (rewrite FR; reflexivity). rewrite EC. fold (leaf_probs nd).
      destruct (argmax (leaf_probs nd)) as [i|] eqn:A1; cbn [rbind]; auto. destruct (idx_to_class (tc_classes c) i) as [l|] eqn:A2; cbn [opt_res rbind]; auto.
      destruct (negb (sum_nat (nd_counts nd) =? 0) && qeq (qsum (leaf_probs nd)) 1%Qc) eqn:A3; cbn [guard rbind]; auto. split; auto. apply KEEP. constructor.
      * rewrite FR. reflexivity.
      * intros _ p HP. cbn in HP. injection HP as <-. split; auto. exists i, l. auto.
      * intros X. congruence.
  - destruct (nd_pval nd') as [v|] eqn:EP.
    + destruct (RG eq_refl v eq_refl) as [l [A1 [A2 ->]]]. rewrite A1. cbn [opt_res rbind]. destruct l; [contradiction|]. cbn [length Nat.eqb negb guard rbind]. split; auto. split; auto.
    + assert (EC : nd_labels nd' = nd_labels nd) by (rewrite FR; reflexivity). rewrite EC. destruct (nd_labels nd) as [l|] eqn:A1; cbn [opt_res rbind]; auto.
      destruct (length l =? 0) eqn:A2; cbn [negb guard rbind]; auto. split; auto. apply KEEP. constructor.
      * rewrite FR. reflexivity.
      * intros X. congruence.
      * intros _ v HP. cbn in HP. injection HP as <-. exists l. split; auto. split; auto. intros ->. discriminate.
Qed.

Lemma batch_cached xs : forall t' ps t'', cached_tree t' -> tree_predict_batch c t' xs = Ok (ps, t'') ->
  cached_tree t'' /\ mapM fresh_answer xs = Ok ps.
Proof.
  induction xs as [|x xs IH]; intros t' ps t'' C H; cbn [tree_predict_batch] in H.
  - apply ok_pair_inv in H. destruct H as [<- <-]. auto.
  - apply rbind_ok in H. destruct H as [[p t1] [E1 H]]. cbn [fst snd] in H. apply rbind_ok in H. destruct H as [[ps' t2] [E2 H]]. cbn [fst snd] in H.
    apply ok_pair_inv in H. destruct H as [<- <-]. pose proof (predict_cached t' x C) as PC. rewrite E1 in PC. destruct PC as [PC1 PC2].
    destruct (IH _ _ _ PC2 E2) as [J1 J2]. split; auto. cbn [mapM]. rewrite PC1. cbn [rbind]. rewrite J2. reflexivity.
Qed.

Lemma answer_fresh t' x : cached_tree t' -> answer (tree_predict c t' x) = fresh_answer x.
Proof. intros C. pose proof (predict_cached t' x C) as H. unfold answer. destruct (tree_predict c t' x) as [[p t'']|]; [symmetry; tauto|auto]. Qed.

Lemma fitted_memoryless xs ps t' x : tree_predict_batch c t xs = Ok (ps, t') -> answer (tree_predict c t' x) = answer (tree_predict c t x).
Proof.
  intros H. destruct (batch_cached _ _ _ _ cached_self H) as [C _]. rewrite (answer_fresh t' x C). symmetry. apply answer_fresh, cached_self.
Qed.
Lemma fitted_batch_pointwise xs ps t' : tree_predict_batch c t xs = Ok (ps, t') -> mapM (fun x => answer (tree_predict c t x)) xs = Ok ps.
Proof.
  intros H. destruct (batch_cached _ _ _ _ cached_self H) as [_ C]. rewrite <- C. apply mapM_ext. intros x _. apply answer_fresh, cached_self.
Qed.

(** *** Values *)
Lemma probs_spec counts n : 0 < n -> list_sum counts = n ->
  qsum (map (fun k => (Nq k / Nq n)%Qc) counts) = 1%Qc.
Proof.
  intros NP S. assert (G : qsum (map (fun k => (Nq k / Nq n)%Qc) counts) = (Nq (list_sum counts) / Nq n)%Qc).
  { clear S. induction counts as [|k l IH]; cbn [map qsum]; [change (list_sum []) with 0; rewrite Nq_0; field; now apply Nq_neq0|].
    rewrite IH, list_sum_cons, Nq_plus. field. now apply Nq_neq0. }
  rewrite G, S. field. now apply Nq_neq0.
Qed.

Lemma leaf_answer_class x leaf nd : tc_class c = true -> good_classes (tc_classes c) -> lands t x 0 leaf -> node_at t leaf nd ->
  let ys := labels_at L (node_rows t leaf) in
  exists label probs, fresh_answer x = Ok (PClass label probs) /\ length probs = length (tc_classes c) /\
    (forall k i, In (k, i) (tc_classes c) -> nth_error probs i = Some (fraction k ys)) /\
    In label (map fst (tc_classes c)) /\ (forall k, In k (map fst (tc_classes c)) -> (fraction k ys <= fraction label ys)%Qc) /\
    (forall p, In p probs -> (0 <= p)%Qc /\ (p <= 1)%Qc) /\ qsum probs = 1%Qc.
Proof.
  intros IC G LD A ys. pose proof built_tinv as T. pose proof (ti_node _ _ _ _ _ _ _ _ T _ _ A) as N.
  unfold fresh_answer. rewrite (lands_walk x 0 leaf LD) by lia. cbn [rbind]. unfold nth_res. unfold node_at in A. rewrite A. cbn [rbind]. rewrite IC.
  pose proof (no_counts _ _ _ _ _ _ _ N IC) as CN. assert (EY : ys = labels_at L (nd_idcs nd)) by (unfold ys; now rewrite (rows_of _ _ A)).
  rewrite <- EY in CN. destruct (counts_of_labels_spec _ _ _ G CN) as [C1 [C2 C3]]. pose proof (counts_total _ _ _ G CN) as C4.
  assert (NP : 0 < length ys). { rewrite EY. unfold labels_at. rewrite map_length. pose proof (no_ne _ _ _ _ _ _ _ N). destruct (nd_idcs nd); [contradiction|cbn; lia]. }
  assert (SN : sum_nat (nd_counts nd) = length ys) by (rewrite sum_nat_list_sum; auto).
  set (probs := leaf_probs nd). assert (EP : probs = map (fun k => (Nq k / Nq (length ys))%Qc) (nd_counts nd)) by (unfold probs, leaf_probs; now rewrite SN).
  assert (LP : length probs = length (tc_classes c)) by (rewrite EP, map_length; auto).
  assert (FR : forall k i, In (k, i) (tc_classes c) -> nth_error probs i = Some (fraction k ys)).
  { intros k i I. rewrite EP, nth_error_map, (C3 k i I). reflexivity. }
  assert (SP : qsum probs = 1%Qc) by (rewrite EP; now apply probs_spec).
  assert (NN : probs <> []) by (intros Z; rewrite Z in SP; discriminate).
  assert (AM : exists i, argmax probs = Ok i) by (destruct probs; [contradiction|cbn; eauto]). destruct AM as [i AM].
  rewrite AM. cbn [rbind]. destruct (argmax_spec _ _ AM) as [m [M1 [M2 _]]].
  assert (LI : i < length (tc_classes c)) by (rewrite <- LP; apply nth_error_Some; congruence).
  destruct (idx_to_class_total _ _ G LI) as [label EL]. rewrite EL. cbn [opt_res rbind]. pose proof (idx_to_class_in _ _ _ EL) as IL.
  rewrite SN. assert (GD : negb (length ys =? 0) && qeq (qsum probs) 1%Qc = true).
  { apply andb_true_iff. split; [apply negb_true_iff, Nat.eqb_neq; lia|now apply qeq_spec]. }
  fold probs. rewrite GD. cbn [guard rbind]. exists label, probs. ands; auto.
  - apply in_map_iff. exists (label, i). auto.
  - intros k K. apply in_map_iff in K. destruct K as [[k' j] [<- K]]. cbn [fst]. pose proof (FR _ _ IL) as F1. rewrite M1 in F1. injection F1 as <-. apply (M2 j). now apply FR.
  - intros p IP. rewrite EP in IP. apply in_map_iff in IP. destruct IP as [k [<- IK]]. pose proof (Nq_pos _ NP).
    assert (LK : k <= length ys). { rewrite <- C4. clear -IK. induction (nd_counts nd) as [|y l IH]; [contradiction|]. rewrite list_sum_cons. destruct IK as [->|IK]; [lia|specialize (IH IK); lia]. }
    split; [apply qdiv_le_0; auto using Nq_nonneg|]. apply qdiv_le_iff; auto. rewrite Qcmult_1_l. now apply Nq_le.
Qed.

Lemma fitted_class x label probs t' : tc_class c = true -> good_classes (tc_classes c) -> tree_predict c t x = Ok (PClass label probs, t') ->
  exists leaf, lands t x 0 leaf /\ let ys := labels_at L (node_rows t leaf) in
    length probs = length (tc_classes c) /\
    (forall k i, In (k, i) (tc_classes c) -> nth_error probs i = Some (fraction k ys)) /\
    In label (map fst (tc_classes c)) /\ (forall k, In k (map fst (tc_classes c)) -> (fraction k ys <= fraction label ys)%Qc) /\
    (forall p, In p probs -> (0 <= p)%Qc /\ (p <= 1)%Qc) /\ total probs = 1%Qc.
Proof.
  intros IC G H. pose proof (answer_fresh t x cached_self) as AF. rewrite H in AF. cbn [answer] in AF.
  assert (WK : exists leaf nd, lands t x 0 leaf /\ node_at t leaf nd).
  { symmetry in AF. unfold fresh_answer in AF. apply rbind_ok in AF. destruct AF as [leaf [WK AF]]. apply rbind_ok in AF. destruct AF as [nd [A _]].
    apply nth_res_ok in A. exists leaf, nd. split; auto. eapply walk_lands_gen; eauto. }
  destruct WK as [leaf [nd [LD A]]]. exists leaf. split; auto.
  destruct (leaf_answer_class x leaf nd IC G LD A) as [l' [p' [FA K]]]. rewrite FA in AF. injection AF as <- <-. exact K.
Qed.

Lemma leaf_answer_reg x leaf nd : tc_class c = false -> lands t x 0 leaf -> node_at t leaf nd -> nd_left nd = None ->
  fresh_answer x = Ok (PReg (qmean (labels_at L (node_rows t leaf)))) /\ labels_at L (node_rows t leaf) <> [].
Proof.
  intros IC LD A LF. pose proof built_tinv as T. pose proof (ti_node _ _ _ _ _ _ _ _ T _ _ A) as N. rewrite (rows_of _ _ A).
  unfold fresh_answer. rewrite (lands_walk x 0 leaf LD) by lia. cbn [rbind]. unfold nth_res. unfold node_at in A. rewrite A. cbn [rbind]. rewrite IC.
  destruct (no_data _ _ _ _ _ _ _ N LF) as [_ ->]. cbn [opt_res rbind]. pose proof (no_ne _ _ _ _ _ _ _ N).
  unfold labels_at. destruct (nd_idcs nd) as [|i l]; [contradiction|]. cbn [map length Nat.eqb negb guard rbind]. split; auto. discriminate.
Qed.

Lemma lands_leaf x id leaf : lands t x id leaf -> exists nd, node_at t leaf nd /\ nd_left nd = None /\ nd_right nd = None.
Proof. induction 1; eauto. Qed.

Lemma fitted_reg x v t' : tc_class c = false -> tree_predict c t x = Ok (PReg v, t') ->
  exists leaf, lands t x 0 leaf /\ v = mean (labels_at L (node_rows t leaf)) /\
    forall lo hi, (forall i, In i (train_rows a) -> (lo <= nth i L 0)%Qc /\ (nth i L 0 <= hi)%Qc) -> (lo <= v)%Qc /\ (v <= hi)%Qc.
Proof.
  intros IC H. pose proof (answer_fresh t x cached_self) as AF. rewrite H in AF. cbn [answer] in AF.
  assert (WK : exists leaf, lands t x 0 leaf).
  { symmetry in AF. unfold fresh_answer in AF. apply rbind_ok in AF. destruct AF as [leaf [WK _]]. exists leaf. eapply walk_lands_gen; eauto. }
  destruct WK as [leaf LD]. destruct (lands_leaf _ _ _ LD) as [nd [A [LF _]]].
  destruct (leaf_answer_reg x leaf nd IC LD A LF) as [FA NN]. rewrite FA in AF. injection AF as ->. exists leaf. split; auto. split; [reflexivity|].
  intros lo hi HB'. apply qmean_bounds; auto. intros y IY. unfold labels_at in IY. apply in_map_iff in IY. destruct IY as [i [<- II]].
  apply HB'. rewrite (rows_of _ _ A) in II. apply (no_rows _ _ _ _ _ _ _ (ti_node _ _ _ _ _ _ _ _ built_tinv _ _ A)); exact II.
Qed.

(** predict answers on every long enough point. *)
Lemma fitted_answers x : (tc_class c = true -> good_classes (tc_classes c)) -> (forall f, In f (train_feats a) -> f < length x) ->
  exists p t', tree_predict c t x = Ok (p, t').
Proof.
  intros G W. destruct (fitted_routes x W) as [leaf [LD _]]. destruct (lands_leaf _ _ _ LD) as [nd [A [LF _]]].
  pose proof (answer_fresh t x cached_self) as AF. destruct (tree_predict c t x) as [[p t']|er] eqn:E; [eauto|]. exfalso. cbn in AF.
  destruct (tc_class c) eqn:IC.
  - destruct (leaf_answer_class x leaf nd IC (G eq_refl) LD A) as [l' [p' [FA _]]]. congruence.
  - destruct (leaf_answer_reg x leaf nd IC LD A LF) as [FA _]. congruence.
Qed.
End Fitted.

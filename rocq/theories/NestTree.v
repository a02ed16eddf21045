(** Raising max_leaf_nodes, for whole fits: the tree, its answers and its training error. *)
From Coq Require Import List Arith Bool ZArith QArith Qcanon Lia Permutation.
From Verif Require Import Base Num Rng Histogram Utils Criteria Solvers Tree Spec SolverSpec TreeSpec TrainSpec NestSpec ListFacts NumFacts TreeFacts TreeThms TrainFacts ColSim NestThms.
Import ListNotations.
Local Open Scope nat_scope.

(** *** One tree grown out of another *)
Lemma tle_extends t t' : tle t t' -> extends t t'.
Proof. intros H id nd A. destruct (H _ _ A) as [nd' [A' [N1 N2 _]]]. exists nd'. split; auto. split; auto. intros S. rewrite (N2 S). auto. Qed.
Lemma desc_trans t u v w : descends t u v -> descends t v w -> descends t u w.
Proof. intros H K. induction K; auto. eapply desc_child; eauto. Qed.
Lemma lands_desc t x id leaf : lands t x id leaf -> descends t id leaf.
Proof.
  induction 1 as [id nd A|id nd l s v xv leaf A E1 E2 E3 E4 Q H IH|id nd l r s v xv leaf A E1 E1' E2 E3 E4 Q H IH].
  - eapply desc_here; eauto.
  - eapply desc_trans; [|exact IH]. eapply desc_child; [eapply desc_here; eauto|exact A|auto].
  - eapply desc_trans; [|exact IH]. eapply desc_child; [eapply desc_here; eauto|exact A|auto].
Qed.
Lemma lands_below t t' x : extends t t' -> forall id leaf leaf', lands t x id leaf -> lands t' x id leaf' -> descends t' leaf leaf'.
Proof.
  intros EX id leaf leaf' H. revert leaf'. induction H as [id nd A E1 E2|id nd l s v xv leaf A E1 E2 E3 E4 Q H IH|id nd l r s v xv leaf A E1 E1' E2 E3 E4 Q H IH]; intros leaf' H'.
  - eapply lands_desc; eauto.
  - destruct (EX _ _ A) as [nd' [A' [_ K]]]. destruct (K ltac:(congruence)) as (K1 & K2 & K3 & K4 & _). apply IH. unfold node_at in *.
    inversion H' as [i n A2 X1 X2|i n l2 s2 v2 xv2 lf A2 X1 X2 X3 X4 X5 X6|i n l2 r2 s2 v2 xv2 lf A2 X1 X1' X2 X3 X4 X5 X6]; subst; assert (n = nd') by (unfold node_at in *; congruence); subst n; [congruence|replace l with l2 by congruence; exact X6|].
    assert (xv2 = xv) by congruence. assert (v2 = v) by congruence. subst. exfalso. eapply Qclt_not_le; eauto.
  - destruct (EX _ _ A) as [nd' [A' [_ K]]]. destruct (K ltac:(congruence)) as (K1 & K2 & K3 & K4 & _). apply IH. unfold node_at in *.
    inversion H' as [i n A2 X1 X2|i n l2 s2 v2 xv2 lf A2 X1 X2 X3 X4 X5 X6|i n l2 r2 s2 v2 xv2 lf A2 X1 X1' X2 X3 X4 X5 X6]; subst; assert (n = nd') by (unfold node_at in *; congruence); subst n; [congruence| |replace r with r2 by congruence; exact X6].
    assert (xv2 = xv) by congruence. assert (v2 = v) by congruence. subst. exfalso. eapply Qclt_not_le; eauto.
Qed.

Section Two.
Context (P : prng) (M : math) (c c' : tcfg) (a : targs) (e e' : env) (t t' : tree).
Context (HB : built P M c a e t) (HB' : built P M c' a e' t') (NE : train_rows a <> []).
Notation D := (ta_data a).
Notation L := (ta_labels a).

Lemma extends_finer : extends t t' -> finer t t'.
Proof.
  intros EX. pose proof (built_tinv P M c a e t HB NE) as T. pose proof (built_tinv P M c' a e' t' HB' NE) as T'.
  assert (K : forall id nd', node_at t' id nd' -> (exists leaf, In leaf (t_leaves t) /\ incl (nd_idcs nd') (node_rows t leaf)) \/ (exists nd, node_at t id nd /\ nd_left nd <> None)).
  { induction id as [id IH] using lt_wf_ind. intros nd' A'. destruct (nth_error (t_nodes t) id) as [nd|] eqn:A.
    - destruct (nd_left nd) eqn:LF; [right; exists nd; split; [exact A|congruence]|]. left. exists id. split; [apply (ti_leaves _ _ _ _ _ _ _ _ T); exists nd; split; auto|].
      destruct (EX _ _ A) as [x [X [[X1 _] _]]]. unfold node_at in *. assert (x = nd') by congruence. subst x. rewrite X1. unfold node_rows. rewrite A. apply incl_refl.
    - destruct (Nat.eq_dec id 0) as [->|NZ]. { destruct (ti_root _ _ _ _ _ _ _ _ T) as [r [R _]]. unfold node_at in R. congruence. }
      destruct (ti_parent _ _ _ _ _ _ _ _ T' _ _ A') as (p & pn & P1 & P2 & P3 & P4); [lia|].
      assert (SP : nd_left pn <> None). { destruct (nd_left pn) eqn:Z; [congruence|]. destruct (ti_leaf _ _ _ _ _ _ _ _ T' _ _ P3 Z) as [Z2 _]. destruct P4; congruence. }
      destruct (ti_inner _ _ _ _ _ _ _ _ T' _ _ P3 SP) as (l & r & nl & nr & s & v & x & I1 & I2 & _ & _ & _ & I6 & I7 & _ & _ & _ & _ & _ & _ & _ & I8 & I9 & _).
      destruct (IH p P2 pn P3) as [[leaf [L1 L2]]|[pn0 [Q1 Q2]]].
      + left. exists leaf. split; auto. eapply incl_tran; [|exact L2]. destruct P4 as [P4|P4]; [assert (l = id) by congruence; subst l; assert (nd' = nl) by (unfold node_at in *; congruence)|assert (r = id) by congruence; subst r; assert (nd' = nr) by (unfold node_at in *; congruence)]; subst nd'; rewrite ?I8, ?I9; intros i Hi; now apply filter_In in Hi.
      + exfalso. destruct (EX _ _ Q1) as [x0 [X0 [_ X1]]]. destruct (X1 Q2) as (Y1 & Y2 & _). assert (x0 = pn) by (unfold node_at in *; congruence). subst x0.
        destruct (ti_inner _ _ _ _ _ _ _ _ T _ _ Q1 Q2) as (l0 & r0 & nl0 & nr0 & s0 & v0 & x0 & J1 & J2 & _ & _ & _ & J6 & J7 & _). unfold node_at in *. destruct P4; congruence. }
  intros leaf' IL. apply (ti_leaves _ _ _ _ _ _ _ _ T') in IL. destruct IL as [nd' [A' LF]]. destruct (K _ _ A') as [[leaf [L1 L2]]|[nd [A S]]].
  - exists leaf. split; auto. unfold node_rows at 1. unfold node_at in A'. now rewrite A'.
  - exfalso. destruct (EX _ _ A) as [x [X [_ K1]]]. destruct (K1 S) as (Y1 & _). assert (x = nd') by (unfold node_at in *; congruence). subst x. congruence.
Qed.

(** The answers for training rows depend on the leaf only. *)
Lemma answers_leafwise q : (forall i, In i (train_rows a) -> fresh_answer c t (nth i D []) = Ok (q i)) ->
  forall leaf i j, In leaf (t_leaves t) -> In i (node_rows t leaf) -> In j (node_rows t leaf) -> q i = q j.
Proof.
  intros Q leaf i j IL Ii Ij. pose proof (fitted_rows_routed P M c a e t HB NE leaf i IL Ii) as L1. pose proof (fitted_rows_routed P M c a e t HB NE leaf j IL Ij) as L2.
  assert (RI : forall k, In k (node_rows t leaf) -> In k (train_rows a)).
  { intros k Hk. eapply Permutation_in; [apply (proj1 (fitted_partition P M c a e t HB NE))|]. apply in_flat_map. eauto. }
  pose proof (Q i (RI _ Ii)) as Q1. pose proof (Q j (RI _ Ij)) as Q2. unfold fresh_answer in Q1, Q2.
  rewrite (lands_walk P M c a e t HB NE _ 0 leaf L1) in Q1 by lia. rewrite (lands_walk P M c a e t HB NE _ 0 leaf L2) in Q2 by lia. congruence.
Qed.
Lemma finer_leafwise (q : nat -> Qc) : finer t t' -> leafwise t q -> leafwise t' q.
Proof. intros F G leaf' i j IL Ii Ij. destruct (F _ IL) as [leaf [L1 L2]]. apply (G leaf); auto. Qed.
Lemma finer_error ps s ps' s' : finer t t' -> tc_class c = false -> tc_class c' = false ->
  tree_predict_batch c t (train_points a) = Ok (ps, s) -> tree_predict_batch c' t' (train_points a) = Ok (ps', s') ->
  (sq_error (train_labels a) (map number_of ps') <= sq_error (train_labels a) (map number_of ps))%Qc.
Proof.
  intros F IC IC' H H'. destruct (batch_values P M c a e t HB NE _ _ H) as (q & -> & Q). rewrite map_map.
  apply (proj1 (training_error P M c' a e' t' HB' NE _ _ IC' H')). apply finer_leafwise; auto. intros leaf i j IL Ii Ij. f_equal. eapply answers_leafwise; eauto.
Qed.
Lemma finer_hits ps s ps' s' : finer t t' -> tc_class c = true -> tc_class c' = true -> good_classes (tc_classes c') ->
  tree_predict_batch c t (train_points a) = Ok (ps, s) -> tree_predict_batch c' t' (train_points a) = Ok (ps', s') ->
  hits (train_labels a) (map label_of ps) <= hits (train_labels a) (map label_of ps').
Proof.
  intros F IC IC' G H H'. destruct (batch_values P M c a e t HB NE _ _ H) as (q & -> & Q). rewrite map_map.
  apply (proj1 (training_hits P M c' a e' t' HB' NE _ _ IC' G H')). apply finer_leafwise; auto. intros leaf i j IL Ii Ij. f_equal. eapply answers_leafwise; eauto.
Qed.
(** A point whose leaf was not split further gets the same answer. *)
Lemma same_leaf_answer x leaf : tle t t' -> tc_class c' = tc_class c -> tc_classes c' = tc_classes c -> lands t x 0 leaf -> lands t' x 0 leaf ->
  answer (tree_predict c' t' x) = answer (tree_predict c t x).
Proof.
  intros EX C1 C2 L1 L2. pose proof (predict_cached c t t x (cached_self P M c a e t HB NE)) as H1. pose proof (predict_cached c' t' t' x (cached_self P M c' a e' t' HB' NE)) as H2.
  assert (E : fresh_answer c' t' x = fresh_answer c t x).
  { unfold fresh_answer. rewrite (lands_walk P M c a e t HB NE _ 0 leaf L1) by lia. rewrite (lands_walk P M c' a e' t' HB' NE _ 0 leaf L2) by lia. cbn [rbind].
    destruct (lands_leaf _ _ _ _ L1) as [nd [A [LF _]]]. destruct (lands_leaf _ _ _ _ L2) as [nd' [A' [LF' _]]]. destruct (EX _ _ A) as [x0 [X0 [N1 _ N3]]]. assert (x0 = nd') by (unfold node_at in *; congruence). subst x0.
    destruct (N3 LF') as (_ & N4 & _). destruct N1 as (_ & _ & _ & _ & _ & _ & N5). unfold nth_res. unfold node_at in A, A'. rewrite A, A'. cbn [rbind]. unfold leaf_probs. now rewrite N4, N5, C1, C2. }
  destruct (tree_predict c' t' x) as [[p s]|]; destruct (tree_predict c t x) as [[p0 s0]|]; cbn [answer]; try destruct H1 as [H1 _]; try destruct H2 as [H2 _]; congruence.
Qed.
End Two.

(** *** Two fits that differ only in max_leaf_nodes *)
Lemma fit_course M c t0 e0 t e1 : tree_fit M c t0 (None, None) e0 = Ok (t, e1) -> exists d, forall m, let st := start_tree t0 d in
  tree_fit M (with_leaf_limit c m) t0 (None, None) e0 = fit_loop M (with_leaf_limit c m) (S (leaf_rows st)) st e0.
Proof.
  unfold tree_fit. cbn [rbind]. cbn [with_leaf_limit tc_bin tc_make_discrete tc_splitter]. intros H. apply rbind_ok in H. destruct H as [t1 [E1 H]].
  destruct (tc_splitter c) eqn:SP; try discriminate. clear H.
  match type of E1 with (if ?b then _ else _) = _ => destruct b end.
  - apply rbind_ok in E1. destruct E1 as [d [E1 _]]. exists (Some d). intros m. rewrite E1. reflexivity.
  - exists (t_dd t0). intros m. reflexivity.
Qed.
Section Limits.
Context (P : prng) (M : math) (c : tcfg) (a : targs) (e : env) (m m' : option nat).
Context (NE : train_rows a <> []) (LE : limit_le m m').

Lemma nest_built t' : m <> Some 0 -> built P M (with_leaf_limit c m') a e t' ->
  exists t, built P M (with_leaf_limit c m) a e t /\ tle t t' /\ t_queries t <= t_queries t' /\ length (t_leaves t) = capped m (length (t_leaves t')).
Proof.
  intros NZ (t0 & e0 & e1 & H1 & H2). destruct (fit_course M _ _ _ _ _ H2) as [d K]. cbn zeta in K. pose proof (K m') as K1. change (with_leaf_limit (with_leaf_limit c m') m') with (with_leaf_limit c m') in K1. rewrite K1 in H2. clear K1.
  destruct (start_inv M P (with_leaf_limit c m') a e t0 e0 d H1 NE) as [I S].
  assert (HM : forall k, m = Some k -> length (t_leaves (start_tree t0 d)) <= k).
  { intros k ->. destruct (ti_splits _ _ _ _ _ _ _ _ I) as [SL _]. rewrite S in SL. destruct k; [congruence|lia]. }
  destruct (loop_nest M (with_leaf_limit c m') _ _ _ _ _ m m' _ LE _ _ _ _ I HM eq_refl H2) as (t & e2 & F & Q).
  exists t. split; [|tauto]. exists t0, e0, e2. split; [exact H1|]. specialize (K m). change (with_leaf_limit (with_leaf_limit c m') m) with (with_leaf_limit c m) in *. rewrite K. exact F.
Qed.
Lemma zero_limit t : built P M (with_leaf_limit c (Some 0)) a e t -> False.
Proof.
  intros (t0 & e0 & e1 & H1 & H2). destruct (fit_spec _ _ _ _ _ _ H2) as [d [fuel H3]]. destruct (start_inv M P _ a e t0 e0 d H1 NE) as [I S]. destruct (loop_tinv _ _ _ _ _ _ _ _ _ _ _ _ I H3) as [T [_ [LM _]]].
  specialize (LM 0 eq_refl). destruct (ti_splits _ _ _ _ _ _ _ _ T) as [SL _]. lia.
Qed.
Lemma built_fun c0 t t2 : built P M c0 a e t -> built P M c0 a e t2 -> t = t2.
Proof. intros (t0 & e0 & e1 & H1 & H2) (s0 & f0 & f1 & K1 & K2). rewrite H1 in K1. injection K1 as <- <-. rewrite H2 in K2. now injection K2 as <- <-. Qed.
Lemma nest_two t t' : built P M (with_leaf_limit c m) a e t -> built P M (with_leaf_limit c m') a e t' ->
  tle t t' /\ t_queries t <= t_queries t' /\ length (t_leaves t) = capped m (length (t_leaves t')).
Proof.
  intros B B'. destruct (nest_built t') as (t2 & B2 & Q); auto; [intros ->; eapply zero_limit; eauto|]. rewrite (built_fun _ _ _ B B2). exact Q.
Qed.
Theorem larger_limit t t' : built P M (with_leaf_limit c m) a e t -> built P M (with_leaf_limit c m') a e t' ->
  extends t t' /\ finer t t' /\ length (t_leaves t) = capped m (length (t_leaves t')) /\ t_queries t <= t_queries t' /\
  forall x leaf leaf', lands t x 0 leaf -> lands t' x 0 leaf' -> descends t' leaf leaf' /\
    (leaf' = leaf -> answer (tree_predict (with_leaf_limit c m') t' x) = answer (tree_predict (with_leaf_limit c m) t x)).
Proof.
  intros B B'. destruct (nest_two t t' B B') as (T & Q & LN). pose proof (tle_extends _ _ T) as EX. ands; auto; [eapply extends_finer; eauto|].
  intros x leaf leaf' L1 L2. split; [eapply lands_below; eauto|]. intros ->. eapply (same_leaf_answer P M (with_leaf_limit c m) (with_leaf_limit c m')); eauto.
Qed.
Theorem smaller_limit_fits t' : m <> Some 0 -> built P M (with_leaf_limit c m') a e t' -> exists t, built P M (with_leaf_limit c m) a e t.
Proof. intros NZ B. destruct (nest_built t' NZ B) as (t & H & _). eauto. Qed.
Theorem limit_error t t' ps s ps' s' : built P M (with_leaf_limit c m) a e t -> built P M (with_leaf_limit c m') a e t' ->
  tree_predict_batch (with_leaf_limit c m) t (train_points a) = Ok (ps, s) -> tree_predict_batch (with_leaf_limit c m') t' (train_points a) = Ok (ps', s') ->
  (tc_class c = false -> (sq_error (train_labels a) (map number_of ps') <= sq_error (train_labels a) (map number_of ps))%Qc) /\
  (tc_class c = true -> good_classes (tc_classes c) -> hits (train_labels a) (map label_of ps) <= hits (train_labels a) (map label_of ps')).
Proof.
  intros B B' H H'. destruct (larger_limit t t' B B') as (_ & F & _). split.
  - intros IC. exact (finer_error P M _ _ a e e t t' B B' NE _ _ _ _ F IC IC H H').
  - intros IC G. exact (finer_hits P M _ _ a e e t t' B B' NE _ _ _ _ F IC IC G H H').
Qed.
End Limits.

(** Two fits with the same shape answer alike; an exhaustive search has one shape whatever the seed. *)
From Coq Require Import List Arith Bool ZArith QArith Qcanon Lia Permutation.
From Verif Require Import Base Num Rng Histogram Utils Criteria Solvers Tree Forest Spec SolverSpec TreeSpec GrowSpec ListFacts NumFacts TreeFacts TreeThms TreeTotal GrowFacts GrowThms.
Import ListNotations.
Local Open Scope nat_scope.

Lemma shape_lands t t' x id leaf : lands t x id leaf -> forall id' sh, has_shape t id sh -> has_shape t' id' sh -> exists leaf', lands t' x id' leaf' /\ node_rows t' leaf' = node_rows t leaf.
Proof.
  induction 1 as [id nd A E1 E2|id nd l s v xv leaf A E1 E2 E3 E4 Q H IH|id nd l r s v xv leaf A E1 E1' E2 E3 E4 Q H IH]; intros id' sh S S'.
  - inversion S as [i n A0 X1 X2|i n l0 r0 s0 v0 sl sr A0 X1 X2 X3 X4 Hl Hr]; subst; assert (n = nd) by (unfold node_at in *; congruence); subst n; [|congruence].
    inversion S' as [i n A1 Y1 Y2 Z|]; subst. exists id'. split; [eapply lands_here; eauto|]. unfold node_rows. unfold node_at in A, A1. rewrite A, A1. assumption.
  - inversion S as [i n A0 X1 X2|i n l0 r0 s0 v0 sl sr A0 X1 X2 X3 X4 Hl Hr]; subst; assert (n = nd) by (unfold node_at in *; congruence); subst n; [congruence|].
    assert (l0 = l) by congruence. assert (s0 = s) by congruence. assert (v0 = v) by congruence. subst. inversion S' as [|i n l1 r1 s1 v1 sl1 sr1 A1 Y1 Y2 Y3 Y4 Kl Kr]; subst.
    destruct (IH l1 sl Hl Kl) as (leaf' & L1 & L2). exists leaf'. split; auto. eapply lands_left; eauto.
  - inversion S as [i n A0 X1 X2|i n l0 r0 s0 v0 sl sr A0 X1 X2 X3 X4 Hl Hr]; subst; assert (n = nd) by (unfold node_at in *; congruence); subst n; [congruence|].
    assert (r0 = r) by congruence. assert (s0 = s) by congruence. assert (v0 = v) by congruence. subst. inversion S' as [|i n l1 r1 s1 v1 sl1 sr1 A1 Y1 Y2 Y3 Y4 Kl Kr]; subst.
    destruct (IH r1 sr Hr Kr) as (leaf' & L1 & L2). exists leaf'. split; auto. eapply lands_right; eauto.
Qed.
Section Two.
Context (P P' : prng) (M M' : math) (c c' : tcfg) (a a' : targs) (e e' : env) (t t' : tree).
Context (HB : built P M c a e t) (HB' : built P' M' c' a' e' t') (NE : train_rows a <> []) (NE' : train_rows a' <> []).
Context (C1 : tc_class c' = tc_class c) (C2 : tc_classes c' = tc_classes c) (LL : ta_labels a' = ta_labels a).
Lemma same_rows_answer x x' leaf leaf' : lands t x 0 leaf -> lands t' x' 0 leaf' -> node_rows t' leaf' = node_rows t leaf -> answer (tree_predict c' t' x') = answer (tree_predict c t x).
Proof.
  intros L1 L2 RR. pose proof (built_tinv P M c a e t HB NE) as T. pose proof (built_tinv P' M' c' a' e' t' HB' NE') as T'.
  pose proof (predict_cached c t t x (cached_self P M c a e t HB NE)) as H1. pose proof (predict_cached c' t' t' x' (cached_self P' M' c' a' e' t' HB' NE')) as H2.
  assert (E : fresh_answer c' t' x' = fresh_answer c t x).
  { unfold fresh_answer. rewrite (lands_walk P M c a e t HB NE _ 0 leaf L1) by lia. rewrite (lands_walk P' M' c' a' e' t' HB' NE' _ 0 leaf' L2) by lia. cbn [rbind].
    destruct (lands_leaf _ _ _ _ L1) as [nd [A [LF _]]]. destruct (lands_leaf _ _ _ _ L2) as [nd' [A' [LF' _]]]. unfold node_rows in RR. unfold node_at in A, A'. rewrite A, A' in RR. unfold nth_res. rewrite A, A'. cbn [rbind].
    pose proof (ti_node _ _ _ _ _ _ _ _ T _ _ A) as N. pose proof (ti_node _ _ _ _ _ _ _ _ T' _ _ A') as N'.
    destruct (no_data _ _ _ _ _ _ _ N LF) as [_ D1]. destruct (no_data _ _ _ _ _ _ _ N' LF') as [_ D2]. rewrite D1, D2, C1, RR, LL. case_eq (tc_class c); intros IC; [|reflexivity].
    pose proof (no_counts _ _ _ _ _ _ _ N IC) as K1. rewrite <- C1 in IC. pose proof (no_counts _ _ _ _ _ _ _ N' IC) as K2. rewrite RR, LL, C2 in K2. assert (KK : nd_counts nd' = nd_counts nd) by congruence. unfold leaf_probs. rewrite KK, C2. reflexivity. }
  destruct (tree_predict c' t' x') as [[p s]|]; destruct (tree_predict c t x) as [[p0 s0]|]; cbn [answer]; try destruct H1 as [H1 _]; try destruct H2 as [H2 _]; congruence.
Qed.
Lemma same_shape_answers sh x leaf : has_shape t 0 sh -> has_shape t' 0 sh -> lands t x 0 leaf ->
  exists leaf', lands t' x 0 leaf' /\ node_rows t' leaf' = node_rows t leaf /\ answer (tree_predict c' t' x) = answer (tree_predict c t x).
Proof. intros S S' L1. destruct (shape_lands t t' x 0 leaf L1 0 sh S S') as (leaf' & L2 & RR). exists leaf'. split; auto. split; auto. eapply same_rows_answer; eauto. Qed.
End Two.

Theorem recursive_tree P M c a e t W : exhaustive c a -> trainable c a W -> built P M c a e t ->
  exists sh, has_shape t 0 sh /\ recursive M c a 0 (train_rows a) sh /\ Permutation (map (node_rows t) (t_leaves t)) (leaf_sets sh) /\
    forall sh', recursive M c a 0 (train_rows a) sh' -> sh' = sh.
Proof.
  intros EX TR HB. destruct (fitted_recursive P M c a e t W TR HB EX) as (sh & S1 & S2). exists sh. split; auto. split; auto. split; [eapply shape_leaves; eauto|].
  intros sh' R. eapply recursive_unique; eauto. apply EX.
Qed.
Lemma recursive_seed M c a s dd d I sh : recursive M c (with_seed a s dd) d I sh -> recursive M c a d I sh.
Proof.
  induction 1 as [d I f v l r H1 H2 H3 Hl IHl Hr IHr|d I H].
  - apply rec_fork; [exact H1|exact H2|exact H3|exact IHl|exact IHr].
  - apply rec_leaf. exact H.
Qed.
Theorem seed_free P P' M c a e e' s dd t t' W : exhaustive c a -> trainable c a W -> trainable c (with_seed a s dd) W -> built P M c a e t -> built P' M c (with_seed a s dd) e' t' ->
  exists sh, has_shape t 0 sh /\ has_shape t' 0 sh /\
    forall x leaf, lands t x 0 leaf -> exists leaf', lands t' x 0 leaf' /\ node_rows t' leaf' = node_rows t leaf /\ answer (tree_predict c t' x) = answer (tree_predict c t x).
Proof.
  intros EX TR TR' HB HB'. destruct (fitted_recursive P M c a e t W TR HB EX) as (sh & S1 & S2). destruct (fitted_recursive P' M c _ e' t' W TR' HB' EX) as (sh' & S3 & S4).
  assert (sh' = sh) by (eapply recursive_unique; [apply EX|exact S2|exact (recursive_seed _ _ _ _ _ _ _ _ S4)]). subst sh'. exists sh. split; auto. split; auto. intros x leaf L1.
  exact (same_shape_answers P P' M M c c a (with_seed a s dd) e e' t t' HB HB' (tr_rows _ _ _ TR) (tr_rows _ _ _ TR') eq_refl eq_refl eq_refl sh x leaf S1 S3 L1).
Qed.

(** Predictions read the training columns only. *)
From Coq Require Import List Arith Bool ZArith QArith Qcanon Lia Permutation.
From Verif Require Import Base Num Rng Histogram Utils Criteria Solvers Tree Forest Spec TreeSpec ForestSpec NumFacts ListFacts TreeFacts TreeThms ForestFacts ForestThms ForestMore.
Import ListNotations.
Local Open Scope nat_scope.

Lemma tree_columns P M c a e t x y : built P M c a e t -> train_rows a <> [] -> (forall f, In f (train_feats a) -> nth_error x f = nth_error y f) ->
  tree_predict c t x = tree_predict c t y.
Proof.
  intros B NE AG. assert (W : forall k id, walk (t_nodes t) k id x = walk (t_nodes t) k id y).
  { induction k as [|k IH]; intros id; cbn [walk]; [reflexivity|]. destruct (nth_res (t_nodes t) id) as [nd|] eqn:A; [|reflexivity]. cbn [rbind].
    apply nth_res_ok in A. destruct (nd_left nd) as [l0|] eqn:E1; [|reflexivity].
    destruct (split_node P M c a e t B NE id nd A) as (l & r & s & v & _ & _ & _ & _ & _ & S5 & S6 & _ & S8 & _); [congruence|].
    rewrite S5, S6. cbn [opt_res rbind]. assert (SF : In s (train_feats a)) by (apply (no_feats _ _ _ _ _ _ _ (ti_node _ _ _ _ _ _ _ _ (built_tinv P M c a e t B NE) _ _ A)); exact S8).
    unfold nth_res. rewrite <- (AG s SF). destruct (nth_error x s) as [xv|]; [|reflexivity]. cbn [rbind]. destruct (qle xv v); [apply IH|]. destruct (nd_right nd); [cbn; apply IH|reflexivity]. }
  unfold tree_predict. rewrite W. reflexivity.
Qed.

Lemma grown_columns P M c a t x y : grown P M c a t -> train_rows a <> [] -> (forall f, In f (train_feats a) -> nth_error x f = nth_error y f) ->
  answer (tree_predict c t x) = answer (tree_predict c t y).
Proof.
  intros (e & t0 & B & ys & qs & H) NE AG. rewrite (fitted_memoryless P M c a e t0 B NE ys qs t x H), (fitted_memoryless P M c a e t0 B NE ys qs t y H).
  now rewrite (tree_columns P M c a e t0 x y B NE AG).
Qed.

Lemma forest_columns M P c f0 arg h0 e0 f1 h1 e1 f : forest_fit M P c f0 arg h0 e0 = Ok (f1, h1, e1) -> used c h1 f1 f ->
  forall data r0, fit_data f0 arg = Some data -> nth_error data 0 = Some r0 -> some_rows c (length data) ->
  forall x y, (forall j, j < length r0 -> nth_error x j = nth_error y j) -> answer (forest_predict c f x) = answer (forest_predict c f y).
Proof.
  intros HF HU data r0 HD R0 SR x y AG. destruct (use_infos M P c f0 arg h0 e0 f1 h1 e1 f HF HU data HD) as (F & g1 & hh & infos & SD & IN & _).
  destruct (sd_F _ _ _ _ _ _ _ _ SD) as [r0' [R0' RF]]. assert (r0' = r0) by congruence. subst r0'.
  rewrite !forest_answer_trees. assert (Q : answer (trees_predict (f_trees f) x) = answer (trees_predict (f_trees f) y)); [|now rewrite Q].
  revert IN. generalize (f_trees f) as ts. intros ts IN. induction IN as [|[tc t] a ts infos [I1 I2 I3 I4 I5] IN IH]; [reflexivity|]. cbn [trees_predict fst snd] in *.
  assert (NE : train_rows a <> []) by (apply (ao_some _ _ _ _ _ I3); exact SR).
  assert (T := grown_columns P M tc a t x y I2 NE (fun g I => AG g ltac:(pose proof (ao_feats _ _ _ _ _ I3 g I); lia))).
  destruct (tree_predict tc t x) as [[px tx]|]; destruct (tree_predict tc t y) as [[py ty]|]; cbn in T; try discriminate T; cbn [rbind]; [|congruence].
  injection T as ->. destruct (trees_predict ts x) as [[pxs txs]|]; destruct (trees_predict ts y) as [[pys tys]|]; cbn in IH; try discriminate IH; cbn; congruence.
Qed.

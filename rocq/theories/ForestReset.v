(** A forest after reset. *)
From Coq Require Import List Arith Bool ZArith QArith Qcanon Lia.
From Verif Require Import Base Num Rng Histogram Utils Criteria Solvers Tree Forest Spec SolverSpec TreeSpec ForestSpec NumFacts ListFacts.
Import ListNotations.
Local Open Scope nat_scope.

(** The forest with q more queries on its count. *)
Definition more_queries (q : nat) (f : forest) : forest :=
  {| f_data := f_data f; f_org := f_org f; f_new := f_new f; f_trees := f_trees f; f_classes := f_classes f; f_ncl := f_ncl f; f_dd := f_dd f; f_minmax := f_minmax f;
     f_budget := f_budget f; f_queries := q + f_queries f; f_oob := f_oob f; f_mdg := f_mdg f; f_gen := f_gen f |}.
Definition more_fit (q : nat) (r : res (forest * heap * env)) : res (forest * heap * env) :=
  match r with Ok (f, h, e) => Ok (more_queries q f, h, e) | Err x => Err x end.
Definition more_state (q : nat) (s : fstate) : fstate := {| fs_f := more_queries q (fs_f s); fs_e := fs_e s; fs_h := fs_h s; fs_stop := fs_stop s |}.
Definition res_map {A B} (g : A -> B) (r : res A) : res B := match r with Ok x => Ok (g x) | Err x => Err x end.
Lemma rbind_map {A B C} (g : B -> C) (r : res A) (k : A -> res B) (k' : A -> res C) : (forall x, k' x = res_map g (k x)) -> rbind r k' = res_map g (rbind r k).
Proof. intros H. destruct r; cbn; auto. Qed.

Lemma fit_tree_more M P c data F q s i : fit_tree M P c data F (more_state q s) i = res_map (more_state q) (fit_tree M P c data F s i).
Proof.
  unfold fit_tree. cbn [more_state fs_stop fs_f fs_e fs_h more_queries f_gen f_budget f_org f_new f_classes f_minmax f_dd f_trees f_oob f_queries]. destruct (fs_stop s); [reflexivity|]. cbv zeta.
  apply rbind_map. intros [[rows feats] gen1]. match goal with |- (if ?b then _ else _) = _ => destruct b end; [reflexivity|].
  apply rbind_map. intros orgr. apply rbind_map. intros newr. apply rbind_map. intros [rows' gen2]. destruct (draw (e_np (fs_e s))) as [seed np'].
  apply rbind_map. intros la. apply rbind_map. intros te. apply rbind_map. intros [t e]. match goal with |- (if ?b then _ else _) = _ => destruct b end; [reflexivity|].
  apply rbind_map. intros [t' h]. apply rbind_map. intros []. cbn [res_map]. unfold more_state, more_queries, upd_forest. cbn [fs_f fs_e fs_h fs_stop f_data f_org f_new f_trees f_classes f_ncl f_dd f_minmax f_budget f_queries f_oob f_mdg f_gen]. rewrite Nat.add_assoc. reflexivity.
Qed.
Lemma fit_trees_more M P c data F q l : forall s, foldM (fit_tree M P c data F) (more_state q s) l = res_map (more_state q) (foldM (fit_tree M P c data F) s l).
Proof.
  induction l as [|i l IH]; intros s; cbn [foldM]; [reflexivity|]. rewrite fit_tree_more. destruct (fit_tree M P c data F s i) as [s'|]; cbn [res_map rbind]; auto.
Qed.
Lemma fit_without_reset M P c f b data r h e : forest_fit M P c f (Some data, Some r) h e = more_fit (f_queries f) (forest_fit M P c (forest_reset c f b) (Some data, Some r) h e).
Proof.
  assert (MF : forall r0, more_fit (f_queries f) r0 = res_map (fun x => (more_queries (f_queries f) (fst (fst x)), snd (fst x), snd x)) r0) by (intros [[[? ?] ?]|]; reflexivity).
  rewrite MF. unfold forest_fit. cbn [rbind]. cbn [forest_reset f_dd f_minmax f_classes f_ncl f_budget f_queries f_oob f_mdg f_gen f_trees]. cbn [opt_res rbind].
  apply rbind_map. intros r0. apply rbind_map. intros [[org new] h1]. apply rbind_map. intros dd. apply rbind_map. intros mm.
  match goal with |- rbind (foldM ?st ?s1 ?l) _ = res_map _ (rbind (foldM ?st ?s2 ?l) _) => assert (E : s1 = more_state (f_queries f) s2) end.
  { unfold more_state, more_queries. cbn [fs_f fs_e fs_h fs_stop f_data f_org f_new f_trees f_classes f_ncl f_dd f_minmax f_budget f_queries f_oob f_mdg f_gen]. rewrite Nat.add_0_r. destruct (fc_oob c); reflexivity. }
  rewrite E, fit_trees_more. match goal with |- context [res_map (more_state _) ?m] => destruct m as [s'|] end; reflexivity.
Qed.

(** Answers between reset and the next fit. *)
Lemma predict_reset c f b x :
  forest_predict c (forest_reset c f b) x =
    (if fc_class c then match f_classes f with [] => Err IndexError | (k, _) :: _ => Ok (FNanClass k, forest_reset c f b) end
     else if fc_boosting c then Err UnboundLocalError else Ok (FNanReg, forest_reset c f b)).
Proof.
  unfold forest_predict. cbn [forest_reset f_trees f_classes f_ncl trees_predict rbind]. destruct (fc_class c); cbn [mapM rbind].
  - destruct (f_classes f) as [|[k j] l]; reflexivity.
  - destruct (fc_boosting c); reflexivity.
Qed.
Lemma score_reset c f b h d : get_oob_score c (forest_reset c f b) h d = Err TypeError.
Proof. unfold get_oob_score. destruct d; reflexivity. Qed.
Lemma importance_reset c f b : calculate_mdi (forest_reset c f b) = match f_mdg f with Some arr => Ok (arr, forest_reset c f b) | None => Err TypeError end.
Proof. unfold calculate_mdi. cbn [forest_reset f_mdg f_data]. destruct (f_mdg f); reflexivity. Qed.
Lemma fit_reset_no_data M P c f b h e : forest_fit M P c (forest_reset c f b) (None, None) h e = Err TypeError.
Proof. reflexivity. Qed.
Lemma between c f b : (forall x, forest_predict c (forest_reset c f b) x =
    (if fc_class c then match f_classes f with [] => Err IndexError | (k, _) :: _ => Ok (FNanClass k, forest_reset c f b) end
     else if fc_boosting c then Err UnboundLocalError else Ok (FNanReg, forest_reset c f b))) /\
  (forall h d, get_oob_score c (forest_reset c f b) h d = Err TypeError) /\
  calculate_mdi (forest_reset c f b) = match f_mdg f with Some arr => Ok (arr, forest_reset c f b) | None => Err TypeError end /\
  (forall M P h e, forest_fit M P c (forest_reset c f b) (None, None) h e = Err TypeError).
Proof. split; [apply predict_reset|]. split; [apply score_reset|]. split; [apply importance_reset|]. intros. apply fit_reset_no_data. Qed.

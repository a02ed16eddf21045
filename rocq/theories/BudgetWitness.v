(** Runs behind the examples and refutations of PropsBudget.v. *)
From Coq Require Import List Arith Bool ZArith QArith Qcanon Lia.
From Verif Require Import Base Num Rng Histogram Utils Criteria Solvers Tree Forest Spec SolverSpec TreeSpec TrainSpec ForestSpec NestSpec GrowSpec BudgetSpec Samples NumFacts ListFacts TreeTotal TreeMore TrustWitness TreeWitness InvarWitness ForestWitness TrainWitness NestWitness.
Import ListNotations.
Local Open Scope nat_scope.

Definition line (n : nat) : list (list Qc) := map (fun k => [z (Z.of_nat k)]) (seq 0 n).
Definition Y8 : list Qc := map z [0; 1; 20; 22; 100; 101; 130; 150]%Z.
Definition line8 : targs := grow_args (line 8) Y8.
(** Three classes. *)
Definition tri_cfg : tcfg :=
  {| tc_class := true; tc_max_depth := DInf; tc_classes := [(z 0, 0); (z 1, 1); (z 2, 2)]; tc_fsub := FSNone; tc_min_split := 1; tc_min_imp := 0%Qc;
     tc_max_leaves := None; tc_bin := IDENTITY; tc_nb := 10; tc_crit := GINI; tc_splitter := BEST; tc_solver := EXACT; tc_repl := false;
     tc_make_discrete := false; tc_minmax := None; tc_log_split := false; tc_dyn_eps := false; tc_eps := 0%Qc; tc_batch := 6 |}.
Definition Y9 : list Qc := map z [0; 1; 2; 2; 2; 2; 1; 0; 2]%Z.
Definition line9 : targs := grow_args (line 9) Y9.

Lemma line_rect n : rectangular 1 (line n).
Proof. intros r I. apply in_map_iff in I. destruct I as (k & <- & _). reflexivity. Qed.
Lemma line8_trainable : trainable (grow_cfg false 1) line8 1.
Proof. apply grow_trainable; try reflexivity; try (cbn; lia); apply line_rect. Qed.
Lemma line8_limits m b : m <> Some 0 -> trainable (with_leaf_limit (grow_cfg false 1) m) (budgeted line8 b) 1.
Proof. intros H. destruct line8_trainable. constructor; try assumption. Qed.
Lemma tri_goods : good_classes (tc_classes tri_cfg).
Proof.
  split; [|split].
  - cbn. repeat constructor; intros H; cbn in H; repeat (destruct H as [H|H]; [discriminate H|]); exact H.
  - cbn. repeat constructor; intros H; cbn in H; repeat (destruct H as [H|H]; [discriminate H|]); exact H.
  - intros k i I. cbn in I. repeat (destruct I as [E|I]; [injection E as _ <-; cbn; lia|]). destruct I.
Qed.
Lemma line9_trainable : trainable tri_cfg line9 1.
Proof.
  assert (TR : train_rows line9 = seq 0 9) by reflexivity. assert (TF : train_feats line9 = [0]) by reflexivity. constructor; try rewrite TF; try rewrite TR.
  - reflexivity.
  - apply line_rect.
  - discriminate.
  - intros i I. apply in_seq in I. change (length (ta_labels line9)) with 9. lia.
  - discriminate.
  - intros f [<-|[]]. lia.
  - exact Logic.I.
  - discriminate.
  - reflexivity.
  - discriminate.
  - now left.
  - intros _. split.
    + intros i I. apply in_seq in I. change (In (nth i Y9 0%Qc) [z 0; z 1; z 2]). do 9 (destruct i as [|i]; [cbn; tauto|]). lia.
    + intros k i I. cbn in I. repeat (destruct I as [E|I]; [injection E as _ <-; cbn; lia|]). destruct I.
  - exact Logic.I.
  - exact Logic.I.
Qed.

(** Leaves, queries and squared errors for a budget. *)
Definition run8 (b : option Z) : res tree := run_with P0 M0 (grow_cfg false 1) (budgeted line8 b) env0.
Definition tally (b : option Z) : option (nat * nat) := match run8 b with Ok t => Some (length (t_leaves t), t_queries t) | Err _ => None end.
Definition err8 (b : option Z) : option Qc := error_of (grow_cfg false 1) (budgeted line8 b) None.
Definition rows8 (b : option Z) : list (list nat) := match run8 b with Ok t => map (node_rows t) (t_leaves t) | Err _ => [] end.
Definition run9 (b : option Z) : res tree := run_with P0 M0 tri_cfg (budgeted line9 b) env0.

Lemma built8 b t : run8 b = Ok t -> built P0 M0 (grow_cfg false 1) (budgeted line8 b) env0 t.
Proof. unfold run8. apply run_built. Qed.
Lemma built9 b t : run9 b = Ok t -> built P0 M0 tri_cfg (budgeted line9 b) env0 t.
Proof. unfold run9. apply run_built. Qed.
(** Every leaf of the second list is part of a leaf of the first. *)
Definition refines (l l' : list (list nat)) : bool := forallb (fun J' => existsb (fun J => forallb (fun i => existsb (Nat.eqb i) J) J') l) l'.
Lemma finer_refines t t' : finer t t' -> refines (map (node_rows t) (t_leaves t)) (map (node_rows t') (t_leaves t')) = true.
Proof.
  intros F. unfold refines. apply forallb_forall. intros J' I. apply in_map_iff in I. destruct I as (l' & <- & I). destruct (F _ I) as (l & L1 & L2).
  apply existsb_exists. exists (node_rows t l). split; [now apply in_map|]. apply forallb_forall. intros i Hi. apply existsb_exists. exists i. split; [auto|apply Nat.eqb_refl].
Qed.
Lemma not_nested : exists P M c a W e b b' t t', searches_all c /\ trainable c a W /\ budget_le b b' /\ built P M c (budgeted a b) e t /\ built P M c (budgeted a b') e t' /\ ~ finer t t'.
Proof.
  exists P0, M0, (grow_cfg false 1), line8, 1, env0, (Some 12%Z), (Some 13%Z).
  assert (K : check (run8 (Some 12%Z)) (fun t => check (run8 (Some 13%Z)) (fun t' => negb (refines (map (node_rows t) (t_leaves t)) (map (node_rows t') (t_leaves t'))))) = true) by (vm_compute; reflexivity).
  apply via in K. destruct K as [t [E K]]. apply via in K. destruct K as [t' [E' K]]. exists t, t'. split; [repeat split; right; reflexivity|]. split; [apply line8_trainable|]. split; [cbn; lia|]. split; [apply built8; exact E|]. split; [apply built8; exact E'|].
  intros F. rewrite (finer_refines _ _ F) in K. discriminate K.
Qed.
Lemma not_enough : exists P M c a W e t t', searches_all c /\ trainable c a W /\ built P M c (budgeted a None) e t' /\ built P M c (budgeted a (Some (Z.of_nat (t_queries t')))) e t /\ length (t_leaves t) < length (t_leaves t').
Proof.
  exists P0, M0, (grow_cfg false 1), line8, 1, env0.
  assert (K : check (run8 None) (fun t' => check (run8 (Some 24%Z)) (fun t => (t_queries t' =? 24) && (length (t_leaves t) <? length (t_leaves t')))) = true) by (vm_compute; reflexivity).
  apply via in K. destruct K as [t' [E' K]]. apply via in K. destruct K as [t [E K]]. apply andb_prop in K. destruct K as [K1 K2]. apply Nat.eqb_eq in K1. apply Nat.ltb_lt in K2. exists t, t'. rewrite K1.
  split; [repeat split; right; reflexivity|]. split; [apply line8_trainable|]. split; [apply built8; exact E'|]. split; [apply built8; exact E|exact K2].
Qed.
Lemma hits_fall : exists P M c a W e b b' t t' ps s ps' s', searches_all c /\ trainable c a W /\ good_classes (tc_classes c) /\ tc_class c = true /\ budget_le b b' /\ built P M c (budgeted a b) e t /\ built P M c (budgeted a b') e t' /\
  tree_predict_batch c t (train_points a) = Ok (ps, s) /\ tree_predict_batch c t' (train_points a) = Ok (ps', s') /\ hits (train_labels a) (map label_of ps') < hits (train_labels a) (map label_of ps).
Proof.
  exists P0, M0, tri_cfg, line9, 1, env0, (Some 11%Z), (Some 12%Z).
  assert (K : check (run9 (Some 11%Z)) (fun t => check (run9 (Some 12%Z)) (fun t' => check (tree_predict_batch tri_cfg t (train_points line9)) (fun r => check (tree_predict_batch tri_cfg t' (train_points line9)) (fun r' =>
    hits (train_labels line9) (map label_of (fst r')) <? hits (train_labels line9) (map label_of (fst r)))))) = true) by (vm_compute; reflexivity).
  apply via in K. destruct K as [t [E K]]. apply via in K. destruct K as [t' [E' K]]. apply via in K. destruct K as [[ps s] [B K]]. apply via in K. destruct K as [[ps' s'] [B' K]]. cbn [fst] in K. apply Nat.ltb_lt in K.
  exists t, t', ps, s, ps', s'. split; [repeat split; right; reflexivity|]. split; [apply line9_trainable|]. split; [apply tri_goods|]. split; [reflexivity|]. split; [cbn; lia|]. split; [apply built9; exact E|]. split; [apply built9; exact E'|]. auto.
Qed.

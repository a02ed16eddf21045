(** Runs behind the examples and refutations of PropsTrain.v. *)
From Coq Require Import List Arith Bool ZArith QArith Qcanon Lia.
From Verif Require Import Base Num Rng Histogram Utils Criteria Solvers Tree Forest Spec SolverSpec TreeSpec TrainSpec ForestSpec Samples NumFacts ListFacts TreeTotal TreeMore TrustWitness TreeWitness InvarWitness ForestWitness FInvarWitness.
Import ListNotations.
Local Open Scope nat_scope.

(** No limit on leaves, depth or budget; a node with more than [ms] rows may be split. *)
Definition grow_cfg (cl : bool) (ms : nat) : tcfg :=
  {| tc_class := cl; tc_max_depth := DInf; tc_classes := [(z 0, 0); (z 1, 1)]; tc_fsub := FSNone; tc_min_split := ms; tc_min_imp := 0%Qc;
     tc_max_leaves := None; tc_bin := IDENTITY; tc_nb := 10; tc_crit := if cl then GINI else MSE; tc_splitter := BEST; tc_solver := EXACT; tc_repl := false;
     tc_make_discrete := false; tc_minmax := None; tc_log_split := false; tc_dyn_eps := false; tc_eps := 0%Qc; tc_batch := 6 |}.
Definition grow_args (X : list (list Qc)) (Y : list Qc) : targs := {| ta_data := X; ta_labels := Y; ta_budget := None; ta_dd := None; ta_seed := 7; ta_idcs := None; ta_feats := None |}.
Definition Xxor : list (list Qc) := [[z 0; z 0]; [z 0; z 1]; [z 1; z 0]; [z 1; z 1]].
Definition Yxor : list Qc := [z 0; z 1; z 1; z 0].
Definition X2 : list (list Qc) := [[z 0]; [z 1]].
Definition Y2 : list Qc := [z 0; z 1].

Lemma grow_unlimited cl ms X Y : unlimited (grow_cfg cl ms) (grow_args X Y).
Proof. constructor; try reflexivity. apply qle_refl. Qed.
Lemma grow_trainable cl ms X Y W : rectangular W X -> length X = length Y -> 0 < length X -> 0 < W -> (cl = true -> forall y, In y Y -> y = z 0 \/ y = z 1) ->
  train_feats (grow_args X Y) = seq 0 W -> trainable (grow_cfg cl ms) (grow_args X Y) W.
Proof.
  intros R LX L0 W0 CL TF. assert (TR : train_rows (grow_args X Y) = seq 0 (length Y)) by reflexivity. constructor; try rewrite TF; try rewrite TR.
  - symmetry. exact LX.
  - exact R.
  - rewrite <- LX. destruct X; [cbn in L0; lia|cbn; discriminate].
  - intros i I. apply in_seq in I. change (i < length Y). lia.
  - destruct W; [lia|cbn; discriminate].
  - intros f I. apply in_seq in I. lia.
  - exact Logic.I.
  - discriminate.
  - reflexivity.
  - discriminate.
  - destruct cl; now left.
  - intros IC. cbn in IC. split.
    + intros i I. apply in_seq in I. change (In (nth i Y 0%Qc) [z 0; z 1]). destruct (CL IC (nth i Y 0%Qc)) as [-> | ->]; [apply nth_In; lia|now left|right; now left].
    + intros k i [E|[E|[]]]; injection E as _ <-; cbn; lia.
  - exact Logic.I.
  - exact Logic.I.
Qed.
Lemma grow_goods : good_classes [(z 0, 0); (z 1, 1)].
Proof. apply classes_ex. Qed.

Lemma batch_run c t xs ls (g : pred -> Qc) : check (tree_predict_batch c t xs) (fun r => same_vals (map g (fst r)) ls) = true -> exists ps t', tree_predict_batch c t xs = Ok (ps, t').
Proof. intros K. apply via in K. destruct K as [[ps t'] [E _]]. eauto. Qed.
Lemma batch_differs c t xs ls (g : pred -> Qc) : check (tree_predict_batch c t xs) (fun r => negb (same_vals (map g (fst r)) ls)) = true -> exists ps t', tree_predict_batch c t xs = Ok (ps, t') /\ map g ps <> ls.
Proof. intros K. apply via in K. destruct K as [[ps t'] [E K]]. cbn [fst] in K. exists ps, t'. split; auto. intros Q. rewrite Q, same_vals_refl in K. discriminate K. Qed.

Lemma Xxor_rect : rectangular 2 Xxor.
Proof. intros r I. cbn in I. repeat (destruct I as [<-|I]; [reflexivity|]). destruct I. Qed.
Lemma xor_trainable : trainable (grow_cfg true 1) (grow_args Xxor Yxor) 2.
Proof. apply grow_trainable; try reflexivity; try (cbn; lia); [apply Xxor_rect|]. intros _ y I. cbn in I. intuition. Qed.
Lemma xor_fails : exists P M c a e t ps t' W, trainable c a W /\ built P M c a e t /\ tc_solver c = EXACT /\ tc_bin c = IDENTITY /\ unlimited c a /\ tc_min_split c <= 1 /\
  tc_class c = true /\ tc_crit c = GINI /\ good_classes (tc_classes c) /\ consistent a /\ tree_predict_batch c t (train_points a) = Ok (ps, t') /\ map label_of ps <> train_labels a.
Proof.
  exists P0, M0, (grow_cfg true 1), (grow_args Xxor Yxor), env0.
  assert (K : check (run_with P0 M0 (grow_cfg true 1) (grow_args Xxor Yxor) env0) (fun t => check (tree_predict_batch (grow_cfg true 1) t (train_points (grow_args Xxor Yxor))) (fun r => negb (same_vals (map label_of (fst r)) (train_labels (grow_args Xxor Yxor))))) = true) by (vm_compute; reflexivity).
  apply via in K. destruct K as [t [E K]]. apply batch_differs in K. destruct K as (ps & t' & B & D). exists t, ps, t', 2.
  split; [apply xor_trainable|]. split; [now apply run_built|]. split; [reflexivity|]. split; [reflexivity|]. split; [apply grow_unlimited|]. split; [cbn; lia|]. split; [reflexivity|]. split; [reflexivity|]. split; [apply grow_goods|]. split; auto.
  intros i j I J H. unfold train_rows in I, J. cbn in I, J. pose proof (H 0 ltac:(cbn; auto)) as H0. pose proof (H 1 ltac:(cbn; auto)) as H1.
  repeat (destruct I as [<-|I]; [repeat (destruct J as [<-|J]; [first [reflexivity | discriminate H0 | discriminate H1] |]); destruct J|]). destruct I.
Qed.

Lemma two_rows_trainable : trainable (grow_cfg true 2) (grow_args X2 Y2) 1.
Proof. apply grow_trainable; try reflexivity; try (cbn; lia); [intros r I; cbn in I; repeat (destruct I as [<-|I]; [reflexivity|]); destruct I|]. intros _ y I. cbn in I. intuition. Qed.
Lemma two_rows_fail : exists P M c a e t ps t' W, trainable c a W /\ built P M c a e t /\ tc_solver c = EXACT /\ tc_bin c = IDENTITY /\ unlimited c a /\ tc_min_split c = 2 /\
  tc_class c = true /\ tc_crit c = GINI /\ good_classes (tc_classes c) /\ (forall s, In s (train_feats a) -> determines a s) /\ length (train_rows a) = 2 /\
  tree_predict_batch c t (train_points a) = Ok (ps, t') /\ map label_of ps <> train_labels a.
Proof.
  exists P0, M0, (grow_cfg true 2), (grow_args X2 Y2), env0.
  assert (K : check (run_with P0 M0 (grow_cfg true 2) (grow_args X2 Y2) env0) (fun t => check (tree_predict_batch (grow_cfg true 2) t (train_points (grow_args X2 Y2))) (fun r => negb (same_vals (map label_of (fst r)) (train_labels (grow_args X2 Y2))))) = true) by (vm_compute; reflexivity).
  apply via in K. destruct K as [t [E K]]. apply batch_differs in K. destruct K as (ps & t' & B & D). exists t, ps, t', 1.
  split; [apply two_rows_trainable|]. split; [now apply run_built|]. split; [reflexivity|]. split; [reflexivity|]. split; [apply grow_unlimited|]. split; [reflexivity|]. split; [reflexivity|]. split; [reflexivity|]. split; [apply grow_goods|]. split; [|split; [reflexivity|auto]].
  intros s I. cbn in I. destruct I as [<-|[]]. intros i j II J Q. unfold train_rows in II, J. cbn in II, J.
  repeat (destruct II as [<-|II]; [repeat (destruct J as [<-|J]; [first [reflexivity | discriminate Q] |]); destruct J|]). destruct II.
Qed.

(** Cases that meet the hypotheses of the positive theorems. *)
Lemma X6_rows : rectangular 2 X6.
Proof. intros r I. cbn in I. repeat (destruct I as [<-|I]; [reflexivity|]). destruct I. Qed.
Lemma six_trainable cl ms : trainable (grow_cfg cl ms) (grow_args X6 (if cl then Y6 else T6)) 2.
Proof. destruct cl; apply grow_trainable; try reflexivity; try (cbn; lia); try (apply X6_rows); try discriminate. intros _ y I. cbn in I. intuition. Qed.
Lemma six_determined (cl : bool) : determines (grow_args X6 (if cl then Y6 else T6)) 0.
Proof.
  destruct cl; intros i j I J Q; unfold train_rows in I, J; cbn in I, J;
  repeat (destruct I as [<-|I]; [repeat (destruct J as [<-|J]; [first [reflexivity | discriminate Q] |]); destruct J|]); destruct I.
Qed.
Definition six_run (cl : bool) (ms : nat) : bool :=
  let c := grow_cfg cl ms in let a := grow_args X6 (if cl then Y6 else T6) in
  check (run_with P0 M0 c a env0) (fun t => (0 <? t_splits t) && check (tree_predict_batch c t (train_points a)) (fun r => Bool.eqb (same_vals (map (if cl then label_of else number_of) (fst r)) (train_labels a)) (cl || (ms =? 1)))).
Lemma six_runs : six_run true 1 = true /\ six_run true 2 = true /\ six_run false 1 = true /\ six_run false 2 = true.
Proof. repeat split; vm_compute; reflexivity. Qed.

(** ** Boosting *)
Definition fc_rate (lr : Qc) : fcfg := fcfg0 false 3 false FSNone 0%Qc true (Some lr).
Definition grew (h h1 : heap) : bool := match nth_error h 0, nth_error h1 0 with Some la, Some la' => qlt (sum_sq (la_vals la)) (sum_sq (la_vals la')) | _, _ => false end.
Lemma grew_spec h h1 : grew h h1 = true -> exists la la', nth_error h 0 = Some la /\ nth_error h1 0 = Some la' /\ (sum_sq (la_vals la) < sum_sq (la_vals la'))%Qc.
Proof. unfold grew. destruct (nth_error h 0) as [la|], (nth_error h1 0) as [la'|]; try discriminate. intros H. apply qlt_spec in H. eauto. Qed.
Lemma rate_grows : exists P M c X h e f0 e0 f1 h1 e1 lr la la', forest_new P c (Some X) (Some 0) None None h e = Ok (f0, e0) /\ forest_fit M P c f0 (None, None) h e0 = Ok (f1, h1, e1) /\
  fc_class c = false /\ fc_boosting c = true /\ all_rows c /\ fc_lr c = Some lr /\ (1 + 1 < lr)%Qc /\ boost_ref f0 (None, None) = Some 0 /\ nth_error h 0 = Some la /\ nth_error h1 0 = Some la' /\ (sum_sq (la_vals la) < sum_sq (la_vals la'))%Qc.
Proof.
  exists P1, M0, (fc_rate (z 9)), X6, (heap_of T6), env0.
  assert (K : check (forest_new P1 (fc_rate (z 9)) (Some X6) (Some 0) None None (heap_of T6) env0) (fun a => check (forest_fit M0 P1 (fc_rate (z 9)) (fst a) (None, None) (heap_of T6) (snd a)) (fun r =>
    match boost_ref (fst a) (None, None) with Some 0 => true | _ => false end && grew (heap_of T6) (snd (fst r)))) = true) by (vm_compute; reflexivity).
  take K. take K. destruct x as [f0 e0], x0 as [[f1 h1] e1]. cbn [fst snd] in *. apply andb_prop in K. destruct K as [K1 K]. apply grew_spec in K. destruct K as (la & la' & A & B & C).
  exists f0, e0, f1, h1, e1, (z 9), la, la'. do 2 (split; [assumption|]). split; [reflexivity|]. split; [reflexivity|]. split; [split; [reflexivity|split; apply qle_refl]|]. split; [reflexivity|]. split; [apply qlt_spec; vm_compute; reflexivity|].
  split; [destruct (boost_ref f0 (None, None)) as [[|?]|]; try discriminate K1; reflexivity|]. auto.
Qed.

(** With bootstrap a row drawn many times pulls the mean away from the rows drawn once. *)
Definition X9 : list (list Qc) := map (fun i => [Nq i]) (seq 0 9).
Definition Y9 : list Qc := [z 0; z 0; z 0; z 0; z 0; z 9; z 0; z 0; z 0].
Definition P9 : prng := {| seed_gen := fun _ => [0; 1; 2; 3; 4; 5; 5; 5; 5]; seed_np := fun s => [s]; seed_py := fun s => [s] |}.
Definition fc_root : fcfg :=
  {| fc_class := false; fc_n := 1; fc_max_depth := DFin 0; fc_bootstrap := true; fc_fsub := FSNone; fc_min_split := 2; fc_min_imp := 0%Qc;
     fc_max_leaves := None; fc_bin := IDENTITY; fc_nb := 10; fc_crit := MSE; fc_splitter := BEST; fc_solver := EXACT; fc_seed := 3;
     fc_repl := false; fc_boosting := true; fc_lr := Some (frac 1 2); fc_make_discrete := false; fc_precomp_minmax := false; fc_log_split := false;
     fc_dyn_eps := false; fc_eps := 0%Qc; fc_oob := false; fc_batch := 6; fc_alpha_N := 1%Qc; fc_alpha_F := 1%Qc |}.
Lemma bootstrap_grows : exists P M c X h e f0 e0 f1 h1 e1 lr la la', forest_new P c (Some X) (Some 0) None None h e = Ok (f0, e0) /\ forest_fit M P c f0 (None, None) h e0 = Ok (f1, h1, e1) /\
  fc_class c = false /\ fc_boosting c = true /\ fc_bootstrap c = true /\ fc_lr c = Some lr /\ (0 < lr)%Qc /\ (lr < 1)%Qc /\ boost_ref f0 (None, None) = Some 0 /\ nth_error h 0 = Some la /\ nth_error h1 0 = Some la' /\ (sum_sq (la_vals la) < sum_sq (la_vals la'))%Qc.
Proof.
  exists P9, M0, fc_root, X9, (heap_of Y9), env0.
  assert (K : check (forest_new P9 fc_root (Some X9) (Some 0) None None (heap_of Y9) env0) (fun a => check (forest_fit M0 P9 fc_root (fst a) (None, None) (heap_of Y9) (snd a)) (fun r =>
    match boost_ref (fst a) (None, None) with Some 0 => true | _ => false end && grew (heap_of Y9) (snd (fst r)))) = true) by (vm_compute; reflexivity).
  take K. take K. destruct x as [f0 e0], x0 as [[f1 h1] e1]. cbn [fst snd] in *. apply andb_prop in K. destruct K as [K1 K]. apply grew_spec in K. destruct K as (la & la' & A & B & C).
  exists f0, e0, f1, h1, e1, (frac 1 2), la, la'. do 2 (split; [assumption|]). split; [reflexivity|]. split; [reflexivity|]. split; [reflexivity|]. split; [reflexivity|]. split; [apply qlt_spec; vm_compute; reflexivity|]. split; [apply qlt_spec; vm_compute; reflexivity|].
  split; [destruct (boost_ref f0 (None, None)) as [[|?]|]; try discriminate K1; reflexivity|]. auto.
Qed.

(** A boosted fit that meets the hypotheses of the positive theorem, with three trees. *)
Lemma boost_ex : check (frun P1 fc_bo X6 (heap_of T6) None None) (fun r => (length (f_trees (fst (fst r))) =? 3) && forallb (fun x => check (mapM (fun ct => answer (tree_predict (fst ct) (snd ct) x)) (f_trees (fst (fst r)))) (fun _ => true)) X6 && negb (grew (heap_of T6) (snd (fst r)))) = true /\
  all_rows fc_bo /\ fc_lr fc_bo = Some (frac 1 2) /\ (0 <= frac 1 2)%Qc /\ (frac 1 2 <= 1 + 1)%Qc /\ length T6 = length X6.
Proof. split; [vm_compute; reflexivity|]. split; [split; [reflexivity|split; apply qle_refl]|]. split; [reflexivity|]. split; [apply qle_spec; vm_compute; reflexivity|]. split; [apply qle_spec; vm_compute; reflexivity|reflexivity]. Qed.

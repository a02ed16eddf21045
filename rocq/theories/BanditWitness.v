(** Runs behind the examples and refutations of PropsBandit.v. *)
From Coq Require Import List Arith Bool ZArith QArith Qcanon Lia.
From Verif Require Import Base Num Rng Histogram Utils Criteria Solvers Tree Forest Spec SolverSpec TreeSpec TrainSpec ForestSpec NestSpec GrowSpec BudgetSpec BanditSpec Samples NumFacts ListFacts TreeTotal TreeMore TrustWitness TreeWitness InvarWitness ForestWitness TrainWitness NestWitness BudgetWitness.
Import ListNotations.
Local Open Scope nat_scope.

(** Six evenly spaced thresholds per feature. *)
Definition band_cfg (cl : bool) (sv : solver) (d : Z) (b : nat) : tcfg :=
  {| tc_class := cl; tc_max_depth := DFin d; tc_classes := [(z 0, 0); (z 1, 1)]; tc_fsub := FSNone; tc_min_split := 1; tc_min_imp := 0%Qc;
     tc_max_leaves := None; tc_bin := LINEAR; tc_nb := 6; tc_crit := if cl then GINI else MSE; tc_splitter := BEST; tc_solver := sv; tc_repl := false;
     tc_make_discrete := false; tc_minmax := None; tc_log_split := false; tc_dyn_eps := false; tc_eps := 0%Qc; tc_batch := b |}.
Definition alternate (n : nat) : list Qc := map (fun k => if Nat.even (k / 3) then z 0 else z 1) (seq 0 n).
Definition band_args (n : nat) : targs := grow_args (line n) (alternate n).

Lemma band_trainable cl sv d b X Y W : rectangular W X -> length X = length Y -> 0 < length X -> 0 < W -> (cl = true -> forall y, In y Y -> y = z 0 \/ y = z 1) ->
  train_feats (grow_args X Y) = seq 0 W -> trainable (band_cfg cl sv d b) (grow_args X Y) W.
Proof.
  intros R LX L0 W0 CL TF. assert (TR : train_rows (grow_args X Y) = seq 0 (length Y)) by reflexivity. constructor; try rewrite TF; try rewrite TR.
  - symmetry. exact LX.
  - exact R.
  - rewrite <- LX. destruct X; [cbn in L0; lia|cbn; discriminate].
  - intros i I. apply in_seq in I. change (i < length Y). lia.
  - destruct W; [lia|cbn; discriminate].
  - intros f I. apply in_seq in I. lia.
  - exact Logic.I.
  - discriminate.
  - reflexivity.
  - discriminate.
  - destruct cl; now left.
  - intros IC. cbn in IC. split.
    + intros i I. apply in_seq in I. change (In (nth i Y 0%Qc) [z 0; z 1]). destruct (CL IC (nth i Y 0%Qc)) as [-> | ->]; [apply nth_In; lia|now left|right; now left].
    + intros k i [E|[E|[]]]; injection E as _ <-; cbn; lia.
  - exact Logic.I.
  - exact Logic.I.
Qed.
Lemma alternate_length n : length (alternate n) = n.
Proof. unfold alternate. now rewrite map_length, seq_length. Qed.
Lemma line_length n : length (line n) = n.
Proof. unfold line. now rewrite map_length, seq_length. Qed.
Lemma band_args_trainable cl sv d b n : 0 < n -> trainable (band_cfg cl sv d b) (band_args n) 1.
Proof.
  intros H. apply band_trainable; try rewrite line_length; try rewrite alternate_length; auto; [apply line_rect| |].
  - intros _ y I. apply in_map_iff in I. destruct I as (k & <- & _). destruct (Nat.even _); auto.
  - unfold train_feats, grow_args, line. cbn. destruct n as [|n]; [lia|]. reflexivity.
Qed.

Definition cost (c : tcfg) (a : targs) : option nat := match run_with P0 M0 c a env0 with Ok t => Some (t_queries t) | Err _ => None end.
(** A regression tree of depth one whose root samples more than one batch. *)
Definition regr_args : targs := grow_args (line 8) Y8.
Lemma regr_trainable : trainable (band_cfg false MAB 1 2) regr_args 1.
Proof. apply band_trainable; try reflexivity; try (cbn; lia); apply line_rect. Qed.

(** A classification forest of three bandit trees of depth two, batches of two rows. *)
Definition fc_band : fcfg :=
  {| fc_class := true; fc_n := 3; fc_max_depth := DFin 2; fc_bootstrap := true; fc_fsub := FSNone; fc_min_split := 1; fc_min_imp := 0%Qc;
     fc_max_leaves := None; fc_bin := LINEAR; fc_nb := 6; fc_crit := GINI; fc_splitter := BEST; fc_solver := MAB; fc_seed := 3;
     fc_repl := false; fc_boosting := false; fc_lr := None; fc_make_discrete := false; fc_precomp_minmax := true; fc_log_split := false;
     fc_dyn_eps := false; fc_eps := 0%Qc; fc_oob := false; fc_batch := 2; fc_alpha_N := 1%Qc; fc_alpha_F := 1%Qc |}.
Lemma band_forest_trainable : forest_trainable fc_band (fst (start P1 fc_band Y6)) (None, None) (heap_of Y6) X6 2.
Proof.
  eapply tidy_trainable; [reflexivity|reflexivity|cbn; auto|discriminate|reflexivity|cbn; intros Q; discriminate Q|reflexivity|reflexivity|reflexivity|reflexivity|reflexivity|reflexivity|reflexivity|cbn; lia|lia|apply X6_rect|].
  intros _. split.
  - intros y I. cbn in I. repeat (destruct I as [<-|I]; [cbn; first [left; apply Qc_is_canon; reflexivity | right; left; apply Qc_is_canon; reflexivity]|]). destruct I.
  - intros k i [E|[E|[]]]; injection E as _ <-; cbn; lia.
Qed.
Definition fcost (c : fcfg) : option (nat * nat) := match frun P1 c X6 (heap_of Y6) None None with Ok (f, _, _) => Some (length (f_trees f), f_queries f) | Err _ => None end.

(** Regression: more than a batch at the root. *)
Lemma regression_many : exists P M c a e t W, trainable c a W /\ built P M c a e t /\ tc_solver c = MAB /\ tc_class c = false /\ tc_bin c = LINEAR /\ 1 <= tc_batch c /\ bins_ok c /\ ranges_cover c a /\
  tc_max_depth c = DFin 1 /\ tc_batch c * most_feats (tc_fsub c) (length (train_feats a)) * (2 ^ Z.to_nat 1 - 1) < t_queries t.
Proof.
  exists P0, Msqrt, (band_cfg false MAB 1 2), regr_args, env0.
  assert (K : check (run_with P0 Msqrt (band_cfg false MAB 1 2) regr_args env0) (fun t => 2 <? t_queries t) = true) by (vm_compute; reflexivity).
  apply via in K. destruct K as [t [E K]]. apply Nat.ltb_lt in K. exists t, 1.
  split; [apply regr_trainable|]. split; [now apply run_built|]. split; [reflexivity|]. split; [reflexivity|]. split; [reflexivity|]. split; [cbn; lia|]. split; [right; cbn; lia|]. split; [exact Logic.I|]. split; [reflexivity|exact K].
Qed.
Lemma twenty_root t : run_with P0 M0 (band_cfg true EXACT 2 5) (band_args 20) env0 = Ok t -> may_split (band_cfg true EXACT 2 5) (band_args 20) t 0.
Proof.
  intros E. assert (K : check (run_with P0 M0 (band_cfg true EXACT 2 5) (band_args 20) env0) (fun t => match nth_error (t_nodes t) 0 with Some nd => (nd_depth nd =? 0) && (length (node_rows t 0) =? 20) &&
    (match node_rows t 0 with 0 :: 1 :: 2 :: 3 :: _ => true | _ => false end) | None => false end) = true) by (vm_compute; reflexivity).
  rewrite E in K. cbn [check] in K. destruct (nth_error (t_nodes t) 0) as [nd|] eqn:N; [|discriminate K]. apply andb_prop in K. destruct K as [K K2]. apply andb_prop in K. destruct K as [K0 K1]. apply Nat.eqb_eq in K0, K1.
  destruct (node_rows t 0) as [|[|?] [|[|[|?]] [|[|[|[|?]]] [|[|[|[|[|?]]]] l]]]] eqn:R; try discriminate K2.
  exists nd. rewrite R. split; [exact N|]. split; [cbn; rewrite K0; reflexivity|]. split; [rewrite K1; cbn; lia|].
  exists (z 0), (z 1). split; [left; reflexivity|]. split; [right; right; right; left; reflexivity|discriminate].
Qed.

(** Runs behind the examples and refutations of PropsInvariance.v. *)
From Coq Require Import List Arith Bool ZArith QArith Qcanon Lia Permutation.
From Verif Require Import Base Num Rng Histogram Utils Criteria Solvers Tree Spec SolverSpec TreeSpec InvarSpec Samples NumFacts ListFacts TrustWitness TreeWitness.
Import ListNotations.
Local Open Scope nat_scope.

(** ** The bandit search and the order of the rows *)
Definition P20 : prng := {| seed_gen := fun _ => draws 11; seed_np := fun s => [s; 5]; seed_py := fun s => [s] |}.
Definition cfg20 : tcfg :=
  {| tc_class := false; tc_max_depth := DFin 1; tc_classes := []; tc_fsub := FSNone; tc_min_split := 2; tc_min_imp := frac (-1) 1000000;
     tc_max_leaves := None; tc_bin := LINEAR; tc_nb := 3; tc_crit := MSE; tc_splitter := BEST; tc_solver := MAB; tc_repl := false;
     tc_make_discrete := false; tc_minmax := None; tc_log_split := false; tc_dyn_eps := false; tc_eps := 0%Qc; tc_batch := 12 |}.
Definition args20 (rows : list nat) : targs := {| ta_data := X20; ta_labels := Y20; ta_budget := None; ta_dd := None; ta_seed := 7; ta_idcs := Some rows; ta_feats := None |}.
Definition run_with (P : prng) (M : math) (c : tcfg) (a : targs) (e : env) : res tree := do te <- tree_new P c a e; do r <- tree_fit M c (fst te) (None, None) (snd te); Ok (fst r).
Lemma run_built P M c a e t : run_with P M c a e = Ok t -> built P M c a e t.
Proof.
  unfold run_with. intros H. apply rbind_ok in H. destruct H as [[t0 e0] [E1 H]]. apply rbind_ok in H. destruct H as [[t1 e1] [E2 H]]. cbn [fst snd] in *. injection H as ->. exists t0, e0, e1. auto.
Qed.
Definition root_splits_on (f : nat) (t : tree) : bool := match nth_error (t_nodes t) 0 with Some nd => match nd_sf nd with Some k => k =? f | None => false end | None => false end.
Lemma root_splits_on_spec f t : root_splits_on f t = true -> exists nd, node_at t 0 nd /\ nd_sf nd = Some f.
Proof.
  unfold root_splits_on, node_at. destruct (nth_error (t_nodes t) 0) as [nd|]; [|discriminate]. destruct (nd_sf nd) as [k|] eqn:E; [|discriminate]. intros H. apply Nat.eqb_eq in H. subst k. eauto.
Qed.
Lemma all_in {A} (P : A -> Prop) (l : list A) (b : A -> bool) : (forall x, b x = true -> P x) -> forallb b l = true -> forall x, In x l -> P x.
Proof. intros H F x I. rewrite forallb_forall in F. auto. Qed.
Lemma args20_trainable : trainable cfg20 (args20 (seq 0 20)) 2.
Proof.
  constructor; try reflexivity; try discriminate; cbn [args20 ta_data ta_labels ta_idcs train_rows cfg20 tc_fsub tc_class tc_minmax ta_dd]; auto; try exact I.
  - unfold rectangular. apply (all_in (fun r : list Qc => length r = 2) _ (fun r => length r =? 2)); [intros r H; now apply Nat.eqb_eq in H|vm_compute; reflexivity].
  - intros i Hi. apply in_seq in Hi. exact (proj2 Hi).
  - cbn. intros f I. repeat (destruct I as [<-|I]; [lia|]). destruct I.
Qed.
Lemma args20_reordered : reordered (args20 (seq 0 20)) (args20 (rev (seq 0 20))).
Proof.
  constructor; try reflexivity. 
  - apply Permutation_map. apply Permutation_rev.
  - intros i Hi. change (In i (rev (seq 0 20))) in Hi. apply in_rev in Hi. apply in_seq in Hi. exact (proj2 Hi).
Qed.
Lemma bandit_order : exists P M c a a' W e t t' nd nd', trainable c a W /\ tc_solver c = MAB /\ tc_bin c = LINEAR /\ bins_ok c /\ reordered a a' /\ built P M c a e t /\ built P M c a' e t' /\
  node_at t 0 nd /\ node_at t' 0 nd' /\ nd_sf nd <> nd_sf nd'.
Proof.
  assert (K1 : check (run_with P20 Msqrt cfg20 (args20 (seq 0 20)) env0) (root_splits_on 1) = true) by (vm_compute; reflexivity).
  assert (K2 : check (run_with P20 Msqrt cfg20 (args20 (rev (seq 0 20))) env0) (root_splits_on 0) = true) by (vm_compute; reflexivity).
  apply check_run in K1. destruct K1 as [t [H1 Q1]]. apply check_run in K2. destruct K2 as [t' [H2 Q2]]. apply root_splits_on_spec in Q1, Q2. destruct Q1 as [nd [N1 F1]]. destruct Q2 as [nd' [N2 F2]].
  exists P20, Msqrt, cfg20, (args20 (seq 0 20)), (args20 (rev (seq 0 20))), 2, env0, t, t', nd, nd'.
  split; [apply args20_trainable|]. split; [reflexivity|]. split; [reflexivity|]. split; [right; cbn; lia|]. split; [apply args20_reordered|]. split; [now apply run_built|]. split; [now apply run_built|].
  split; auto. split; auto. rewrite F1, F2. discriminate.
Qed.

(** ** Equally spaced thresholds and a curved change of units *)
Definition bend : units := fun _ x => if qle x (z 2) then x else (z 2 + (x - z 2) * frac 1 8)%Qc.
Lemma bend_increasing : increasing (bend 0).
Proof.
  intros x y H. unfold bend. assert (P : (0 < frac 1 8)%Qc) by (apply qlt_spec; vm_compute; reflexivity). revert P. generalize (frac 1 8). generalize (z 2). intros a h P.
  destruct (qle x a) eqn:E1, (qle y a) eqn:E2; auto; try apply qle_spec in E1; try apply qle_spec in E2; try apply qle_false in E1; try apply qle_false in E2; qnra.
Qed.
Definition cfg4 : tcfg :=
  {| tc_class := false; tc_max_depth := DFin 1; tc_classes := []; tc_fsub := FSNone; tc_min_split := 2; tc_min_imp := frac (-1) 1000000;
     tc_max_leaves := None; tc_bin := LINEAR; tc_nb := 3; tc_crit := MSE; tc_splitter := BEST; tc_solver := EXACT; tc_repl := false;
     tc_make_discrete := false; tc_minmax := None; tc_log_split := false; tc_dyn_eps := false; tc_eps := 0%Qc; tc_batch := 12 |}.
Definition args4 : targs := {| ta_data := [[z 0]; [z 1]; [z 2]; [z 10]]; ta_labels := [z 0; z 0; z 8; z 8]; ta_budget := None; ta_dd := None; ta_seed := 7; ta_idcs := None; ta_feats := None |}.
Lemma args4_trainable : trainable cfg4 args4 1.
Proof.
  constructor; try reflexivity; try discriminate; cbn [args4 ta_data ta_labels ta_idcs train_rows cfg4 tc_fsub tc_class tc_minmax ta_dd]; auto; try exact I.
  - unfold rectangular. apply (all_in (fun r : list Qc => length r = 1) _ (fun r => length r =? 1)); [intros r H; now apply Nat.eqb_eq in H|vm_compute; reflexivity].
  - intros i Hi. apply in_seq in Hi. exact (proj2 Hi).
  - cbn. intros f I. repeat (destruct I as [<-|I]; [lia|]). destruct I.
Qed.
Definition answers (c : tcfg) (v : Qc) (x : list Qc) (t : tree) : bool := match answer (tree_predict c t x) with Ok (PReg y) => qle y v && qle v y | _ => false end.
Lemma answers_spec c v x t : answers c v x t = true -> answer (tree_predict c t x) = Ok (PReg v).
Proof.
  unfold answers. destruct (answer (tree_predict c t x)) as [[l ps|y]|]; try discriminate. intros H. apply andb_true_iff in H. destruct H as [H1 H2]. apply qle_spec in H1, H2. do 2 f_equal. now apply Qcle_antisym.
Qed.
Lemma curved_linear : exists P M c a W u e t t' x, trainable c a W /\ fixed_grid c /\ tc_bin c = LINEAR /\ (forall f, f < W -> increasing (u f)) /\
  built P M c a e t /\ built P M (rescale_cfg u c) (rescale_args u a) e t' /\ In x (ta_data a) /\
  answer (tree_predict (rescale_cfg u c) t' (move_row u x)) <> answer (tree_predict c t x).
Proof.
  assert (K1 : check (run_with P0 M0 cfg4 args4 env0) (answers cfg4 (frac 16 3) [z 2]) = true) by (vm_compute; reflexivity).
  assert (K2 : check (run_with P0 M0 (rescale_cfg bend cfg4) (rescale_args bend args4) env0) (answers (rescale_cfg bend cfg4) (z 8) (move_row bend [z 2])) = true) by (vm_compute; reflexivity).
  apply check_run in K1. destruct K1 as [t [H1 Q1]]. apply check_run in K2. destruct K2 as [t' [H2 Q2]]. apply answers_spec in Q1, Q2.
  exists P0, M0, cfg4, args4, 1, bend, env0, t, t', [z 2].
  split; [apply args4_trainable|]. split; [split; [reflexivity|split; [now left|right; cbn; lia]]|]. split; [reflexivity|]. split; [intros f Hf; replace f with 0 by lia; apply bend_increasing|].
  split; [now apply run_built|]. split; [now apply run_built|]. split; [cbn; auto|]. rewrite Q1, Q2. intros Z. injection Z as Z. discriminate Z.
Qed.

(** Runs behind PropsCol.v. *)
From Coq Require Import List Arith Bool ZArith QArith Qcanon Lia Sorted.
From Verif Require Import Base Num Rng Histogram Utils Criteria Solvers Tree Samples Spec SolverSpec TreeSpec InvarSpec ColSpec NumFacts ListFacts TreeWitness TrustWitness InvarWitness CopyWitness.
Import ListNotations.
Local Open Scope nat_scope.

Lemma built_runs P M c a e t : built P M c a e t -> run_with P M c a e = Ok t.
Proof. intros (t0 & e0 & e1 & H1 & H2). unfold run_with. rewrite H1. cbn [rbind fst snd]. rewrite H2. reflexivity. Qed.

(** One split at most, three thresholds per column. *)
Definition stump_cfg : tcfg :=
  {| tc_class := true; tc_max_depth := DFin 1; tc_classes := [(z 0, 0); (z 1, 1)]; tc_fsub := FSNone; tc_min_split := 1; tc_min_imp := 0%Qc;
     tc_max_leaves := None; tc_bin := LINEAR; tc_nb := 3; tc_crit := GINI; tc_splitter := BEST; tc_solver := EXACT; tc_repl := false;
     tc_make_discrete := false; tc_minmax := None; tc_log_split := false; tc_dyn_eps := false; tc_eps := 0%Qc; tc_batch := 6 |}.
Definition four : targs := {| ta_data := [[z 0]; [frac 1 2]; [z 1]; [z 2]]; ta_labels := [z 0; z 0; z 1; z 1]; ta_budget := None; ta_dd := None; ta_seed := 7; ta_idcs := None; ta_feats := None |}.
Definition mirror : list Qc := [z 0; frac (-1) 2; z (-1); z (-2)].
Lemma four_trainable : trainable stump_cfg four 1.
Proof.
  constructor; cbn; try discriminate; try reflexivity; auto.
  - intros r H. repeat (destruct H as [<-|H]; [reflexivity|]). destruct H.
  - intros i H. repeat (destruct H as [<-|H]; [lia|]). destruct H.
  - intros f [<-|[]]. lia.
  - intros _. split; [intros i H; repeat (destruct H as [<-|H]; [cbn; tauto|]); destruct H|]. intros k i [E|[E|[]]]; injection E as _ <-; cbn; lia.
Qed.
Lemma stump_columns : all_columns stump_cfg.
Proof. split; [reflexivity|]. split; [now left|]. split; [right; cbn; lia|]. split; reflexivity. Qed.
Lemma mirrored : exists P M c a W x e t t' r v, trainable c a W /\ all_columns c /\ ta_dd a = None /\ ta_budget a = None /\ length x = length (ta_data a) /\
  (forall i, In i (train_rows a) -> nth i x 0%Qc = (- cell (ta_data a) i 0)%Qc) /\ built P M c a e t /\ built P M c (add_column W x a) e t' /\
  In r (ta_data a) /\ In (r ++ [v]) (ta_data (add_column W x a)) /\ answer (tree_predict c t' (r ++ [v])) <> answer (tree_predict c t r).
Proof.
  assert (K1 : check (run_with P0 M0 stump_cfg four env0) (fun t => negb (sure stump_cfg [frac 1 2] t)) = true) by (vm_compute; reflexivity).
  assert (K2 : check (run_with P0 M0 stump_cfg (add_column 1 mirror four) env0) (sure stump_cfg ([frac 1 2] ++ [frac (-1) 2])) = true) by (vm_compute; reflexivity).
  apply check_run in K1. destruct K1 as [t [H1 Q1]]. apply check_run in K2. destruct K2 as [t' [H2 Q2]].
  exists P0, M0, stump_cfg, four, 1, mirror, env0, t, t', [frac 1 2], (frac (-1) 2). split; [apply four_trainable|]. split; [apply stump_columns|]. split; [reflexivity|]. split; [reflexivity|]. split; [reflexivity|]. split.
  { intros i H. cbn in H. repeat (destruct H as [<-|H]; [apply Qc_is_canon; vm_compute; reflexivity|]). destruct H. }
  split; [now apply run_built|]. split; [now apply run_built|]. split; [cbn; auto|]. split; [cbn; auto|]. intros E. apply negb_true_iff in Q1. unfold sure in Q1, Q2. rewrite E in Q2. rewrite Q1 in Q2. discriminate.
Qed.

(** Two columns, of which the first is constant and the second tells nothing about the labels. *)
Definition useless : targs := {| ta_data := [[z 5; z 0]; [z 5; z 0]; [z 5; z 1]; [z 5; z 1]]; ta_labels := [z 0; z 1; z 0; z 1]; ta_budget := None; ta_dd := None; ta_seed := 7; ta_idcs := None; ta_feats := None |}.
Lemma useless_trainable : trainable stump_cfg useless 2.
Proof.
  constructor; cbn; try discriminate; try reflexivity; auto.
  - intros r H. repeat (destruct H as [<-|H]; [reflexivity|]). destruct H.
  - intros i H. repeat (destruct H as [<-|H]; [lia|]). destruct H.
  - intros f H. repeat (destruct H as [<-|H]; [lia|]). destruct H.
  - intros _. split; [intros i H; repeat (destruct H as [<-|H]; [cbn; tauto|]); destruct H|]. intros k i [E|[E|[]]]; injection E as _ <-; cbn; lia.
Qed.
Definition uses_onlyb (keep : list nat) (t : tree) : bool := forallb (fun nd => match nd_sf nd with Some k => existsb (Nat.eqb k) keep | None => true end) (t_nodes t).
Lemma uses_onlyb_spec keep t : uses_onlyb keep t = true -> uses_only keep t.
Proof.
  intros H nd k I E. unfold uses_onlyb in H. rewrite forallb_forall in H. specialize (H nd I). rewrite E in H. apply existsb_exists in H. destruct H as [j [Ij Q]]. apply Nat.eqb_eq in Q. now subst.
Qed.
Lemma unused_needed : exists P M c a W keep e t, trainable c a W /\ all_columns c /\ ta_dd a = None /\ ta_budget a = None /\ ta_feats a = None /\ StronglySorted lt keep /\ keep <> [] /\ (forall k, In k keep -> k < W) /\
  built P M c a e t /\ uses_only keep t /\ ~ exists t', built P M c (select_columns keep a) e t'.
Proof.
  assert (K1 : check (run_with P0 M0 stump_cfg useless env0) (uses_onlyb [0]) = true) by (vm_compute; reflexivity). apply check_run in K1. destruct K1 as [t [H1 Q1]].
  exists P0, M0, stump_cfg, useless, 2, [0], env0, t. split; [apply useless_trainable|]. split; [apply stump_columns|]. do 3 (split; [reflexivity|]). split; [repeat constructor|]. split; [discriminate|]. split; [intros k [<-|[]]; lia|]. split; [now apply run_built|]. split; [now apply uses_onlyb_spec|].
  intros [t' H]. apply built_runs in H. assert (K2 : is_err (run_with P0 M0 stump_cfg (select_columns [0] useless) env0) IndexError = true) by (vm_compute; reflexivity). rewrite H in K2. discriminate.
Qed.

(** ** Examples *)
(** Non-decreasing in the first column of X6; decreasing in it; 2x + 5 for the second. *)
Definition up : list Qc := [z 1; z 1; z 2; z 2; z 2; z 9].
Definition down : list Qc := [z 6; z 5; z 4; z 3; z 2; z 1].
Definition other_units : list Qc := [z 25; z 45; z 25; z 45; z 25; z 45].
Definition leb_on (g h : nat -> Qc) (l : list nat) : bool := forallb (fun i => forallb (fun j => negb (qle (g i) (g j)) || qle (h i) (h j)) l) l.
Lemma leb_on_spec g h l : leb_on g h l = true -> forall i j, In i l -> In j l -> (g i <= g j)%Qc -> (h i <= h j)%Qc.
Proof.
  intros H i j Hi Hj LE. unfold leb_on in H. rewrite forallb_forall in H. specialize (H i Hi). rewrite forallb_forall in H. specialize (H j Hj). apply qle_spec in LE. rewrite LE in H. apply qle_spec. exact H.
Qed.
Lemma class_columns : all_columns cfg_class /\ all_columns cfg_lin_exact.
Proof. split; (split; [reflexivity|]); (split; [first [now left|now right]|]); (split; [first [exact I|right; cbn; lia]|]); split; reflexivity. Qed.

(** Runs behind the refutations of PropsTree.v. *)
From Coq Require Import List Arith Bool ZArith QArith Qcanon Lia.
From Verif Require Import Base Num Rng Histogram Utils Criteria Solvers Tree Samples Spec SolverSpec TreeSpec NumFacts TreeTotal TreeMore.
Import ListNotations.
Local Open Scope nat_scope.

(** The configurations of the examples: exact search over all values, two classes; the
    regression version with one feature drawn per node; the bandit search over six bins. *)
Definition P0 : prng := {| seed_gen := fun s => [s; 1; 4; 2; 0; 3]; seed_np := fun s => [s; 5]; seed_py := fun s => [s] |}.
Definition tree_cfg (cl : bool) (fs : fsub) (b : bintype) (sv : solver) (nb : nat) : tcfg :=
  {| tc_class := cl; tc_max_depth := DFin 3; tc_classes := [(z 0, 0); (z 1, 1)]; tc_fsub := fs; tc_min_split := 2; tc_min_imp := frac (-1) 1000000;
     tc_max_leaves := Some 4; tc_bin := b; tc_nb := nb; tc_crit := if cl then GINI else MSE; tc_splitter := BEST; tc_solver := sv; tc_repl := false;
     tc_make_discrete := false; tc_minmax := None; tc_log_split := false; tc_dyn_eps := false; tc_eps := 0%Qc; tc_batch := 6 |}.
Definition cfg_class := tree_cfg true FSNone IDENTITY EXACT 10.
Definition cfg_reg := tree_cfg false (FSInt 1) IDENTITY EXACT 10.
Definition cfg_lin_exact := tree_cfg true FSNone LINEAR EXACT 4.
Definition cfg_mab := tree_cfg true FSNone LINEAR MAB 6.
Definition targs_of (Y : list Qc) : targs := {| ta_data := X6; ta_labels := Y; ta_budget := None; ta_dd := None; ta_seed := 7; ta_idcs := Some [0; 1; 2; 3; 4; 5; 3]; ta_feats := None |}.
Definition with_budget (a : targs) (b : Z) : targs :=
  {| ta_data := ta_data a; ta_labels := ta_labels a; ta_budget := Some b; ta_dd := ta_dd a; ta_seed := ta_seed a; ta_idcs := ta_idcs a; ta_feats := ta_feats a |}.

Example targs_trainable : trainable cfg_class (targs_of Y6) 2 /\ trainable cfg_reg (targs_of T6) 2 /\ trainable cfg_mab (targs_of Y6) 2 /\ trainable cfg_lin_exact (targs_of Y6) 2.
Proof.
  assert (G : forall c Y, tc_fsub c = FSNone \/ tc_fsub c = FSInt 1 -> tc_max_depth c = DFin 3 -> tc_splitter c = BEST -> tc_max_leaves c = Some 4 ->
    tc_crit c = (if tc_class c then GINI else MSE) -> tc_minmax c = None -> tc_classes c = [(z 0, 0); (z 1, 1)] -> (Y = Y6 \/ (Y = T6 /\ tc_class c = false)) -> trainable c (targs_of Y) 2).
  { intros c Y F1 F2 F3 F4 F5 F6 F7 F8. assert (LY : length Y = 6) by (destruct F8 as [-> |[-> _]]; reflexivity). constructor.
    - cbn. exact LY.
    - intros r I. cbn in I. repeat (destruct I as [<-|I]; [reflexivity|]). destruct I.
    - discriminate.
    - cbn. rewrite LY. intros i I. repeat (destruct I as [<-|I]; [lia|]). destruct I.
    - discriminate.
    - cbn. intros f I. repeat (destruct I as [<-|I]; [lia|]). destruct I.
    - destruct F1 as [-> | ->]; cbn; auto. lia.
    - rewrite F2. discriminate.
    - exact F3.
    - rewrite F4. discriminate.
    - rewrite F5. destruct (tc_class c); auto.
    - intros IC. destruct F8 as [-> |[_ F8]]; [|congruence]. rewrite F7. split.
      + intros i I. cbn in I. repeat (destruct I as [<-|I]; [cbn; tauto|]). destruct I.
      + intros k i I. cbn in I. destruct I as [E|[E|[]]]; injection E as _ <-; cbn; lia.
    - now rewrite F6.
    - exact Logic.I. }
  split; [|split; [|split]]; apply G; cbn; auto.
Qed.
Example X6_consistent : consistent (targs_of Y6).
Proof.
  intros i j Hi Hj H. cbn in Hi, Hj. specialize (H 0 (or_introl eq_refl)).
  repeat (destruct Hi as [<-|Hi]; [repeat (destruct Hj as [<-|Hj]; [first [reflexivity | discriminate H] |]); destruct Hj|]). destruct Hi.
Qed.
Example built_examples : (exists t, built P0 M0 cfg_class (targs_of Y6) env0 t) /\ (exists t, built P0 M0 cfg_reg (targs_of T6) env0 t) /\ (exists t, built P0 M0 cfg_mab (targs_of Y6) env0 t) /\
  (exists t, built P0 M0 cfg_lin_exact (targs_of Y6) env0 t).
Proof.
  destruct targs_trainable as [T1 [T2 [T3 T4]]]. split; [|split; [|split]].
  - apply (exact_fits P0 M0 cfg_class _ 2); [exact T1|reflexivity|]. split; [intros [Z|Z]; discriminate Z|exact Logic.I].
  - apply (exact_fits P0 M0 cfg_reg _ 2); [exact T2|reflexivity|]. split; [intros [Z|Z]; discriminate Z|exact Logic.I].
  - apply (mab_fits P0 M0 cfg_mab _ 2); [exact T3|reflexivity|reflexivity|cbn; lia|discriminate|]. split; [intros _; cbn; lia|]. split; [reflexivity|apply X6_consistent].
  - apply (exact_fits P0 M0 cfg_lin_exact _ 2); [exact T4|reflexivity|]. split; [intros _; cbn; lia|]. split; [reflexivity|apply X6_consistent].
Qed.
(** These trees are not stumps. *)
Definition run (c : tcfg) (a : targs) : res tree := do te <- tree_new P0 c a env0; do r <- tree_fit M0 c (fst te) (None, None) (snd te); Ok (fst r).
Example built_shapes :
  check (run cfg_class (targs_of Y6)) (fun t => (t_splits t =? 1) && (length (node_rows t 1) =? 3) && (length (node_rows t 2) =? 4)) = true /\
  check (run cfg_reg (targs_of T6)) (fun t => (1 <=? t_splits t) && (1 <=? t_queries t)) = true /\
  check (run cfg_mab (targs_of Y6)) (fun t => (t_splits t =? 1) && (1 <=? t_queries t)) = true /\
  check (run cfg_lin_exact (targs_of Y6)) (fun t => (1 <=? t_splits t)) = true.
Proof. repeat split; vm_compute; reflexivity. Qed.
Example rows_nonempty Y : train_rows (targs_of Y) <> [].
Proof. discriminate. Qed.


Lemma exact_identity_fits P M c a W e : trainable c a W -> tc_solver c = EXACT -> tc_bin c = IDENTITY -> exists t, built P M c a e t.
Proof.
  intros T S B. apply (exact_fits P M c a W e); auto. split; [rewrite B; intros [Z|Z]; discriminate Z|rewrite B; exact Logic.I].
Qed.

(** Rows with the same features and different labels. *)
Definition clash : targs := {| ta_data := [[z 1]; [z 1]; [z 1]]; ta_labels := [z 0; z 1; z 0]; ta_budget := None; ta_dd := None; ta_seed := 7; ta_idcs := None; ta_feats := None |}.
Lemma clash_trainable : trainable cfg_lin_exact clash 1.
Proof.
  constructor; cbn; try discriminate; try reflexivity; auto.
  - intros r I. cbn in I. repeat (destruct I as [<-|I]; [reflexivity|]). destruct I.
  - intros i I. repeat (destruct I as [<-|I]; [lia|]). destruct I.
  - intros f I. repeat (destruct I as [<-|I]; [lia|]). destruct I.
  - intros _. split.
    + intros i I. repeat (destruct I as [<-|I]; [cbn; tauto|]). destruct I.
    + intros k i [E|[E|[]]]; injection E as _ <-; lia.
Qed.
Lemma linear_clash : exists P M c a e t0 e0, tc_bin c = LINEAR /\ trainable c a 1 /\ tree_new P c a e = Ok (t0, e0) /\
  tree_fit M c t0 (None, None) e0 = Err IndexError.
Proof.
  exists P0, M0, cfg_lin_exact, clash, env0.
  assert (K : match tree_new P0 cfg_lin_exact clash env0 with Ok (t0, e0) => is_err (tree_fit M0 cfg_lin_exact t0 (None, None) e0) IndexError | Err _ => false end = true) by (vm_compute; reflexivity).
  revert K. generalize (tree_new P0 cfg_lin_exact clash env0). intros [[t0 e0]|x] K; [|discriminate K]. exists t0, e0.
  split; [reflexivity|]. split; [apply clash_trainable|]. split; [reflexivity|]. revert K. generalize (tree_fit M0 cfg_lin_exact t0 (None, None) e0).
  intros [r|[]] K; try discriminate K; reflexivity.
Qed.

(** A regression tree limited to one leaf. *)
Definition cfg_stump : tcfg :=
  {| tc_class := false; tc_max_depth := DFin 3; tc_classes := []; tc_fsub := FSNone; tc_min_split := 2; tc_min_imp := frac (-1) 1000000;
     tc_max_leaves := Some 1; tc_bin := IDENTITY; tc_nb := 10; tc_crit := MSE; tc_splitter := BEST; tc_solver := EXACT; tc_repl := false;
     tc_make_discrete := false; tc_minmax := None; tc_log_split := false; tc_dyn_eps := false; tc_eps := 0%Qc; tc_batch := 6 |}.
Lemma fit_ignores_arguments : exists P M c X Y X' Y' e t0 e0 t e1 v t',
  tree_new P c {| ta_data := X; ta_labels := Y; ta_budget := None; ta_dd := None; ta_seed := 7; ta_idcs := None; ta_feats := None |} e = Ok (t0, e0) /\
  tree_fit M c t0 (Some X', Some Y') e0 = Ok (t, e1) /\ length X' = length Y' /\
  tree_predict c t (nth 0 X' []) = Ok (PReg v, t') /\ (forall y, In y Y' -> (y < v)%Qc).
Proof.
  exists P0, M0, cfg_stump, [[z 1]; [z 2]], [z 10; z 20], [[z 5]; [z 6]], [z 1; z 2], env0.
  set (r0 := tree_new _ _ _ _).
  assert (K : match r0 with
    | Ok (t0, e0) => match tree_fit M0 cfg_stump t0 (Some [[z 5]; [z 6]], Some [z 1; z 2]) e0 with
        | Ok (t, _) => match tree_predict cfg_stump t [z 5] with Ok (PReg v, _) => qlt (z 1) v && qlt (z 2) v | _ => false end
        | Err _ => false end
    | Err _ => false end = true) by (vm_compute; reflexivity).
  clearbody r0. destruct r0 as [[t0 e0]|]; [|discriminate K]. exists t0, e0. revert K.
  generalize (tree_fit M0 cfg_stump t0 (Some [[z 5]; [z 6]], Some [z 1; z 2]) e0). intros [[t e1]|x] K; [|discriminate K]. exists t, e1. revert K.
  change (nth 0 [[z 5]; [z 6]] []) with [z 5]. generalize (tree_predict cfg_stump t [z 5]). intros [[[l ps|v] t']|x] K; try discriminate K. exists v, t'.
  apply andb_prop in K. destruct K as [K1 K2]. apply qlt_spec in K1. apply qlt_spec in K2.
  repeat (split; [reflexivity|]). intros y [<-|[<-|[]]]; [exact K1|exact K2].
Qed.

Lemma no_depth_ready : trainable (with_max_depth (with_max_depth cfg_class DNone) DInf) (targs_of Y6) 2 /\ exists r, tree_new P0 (with_max_depth cfg_class DNone) (targs_of Y6) env0 = Ok r.
Proof.
  split.
  - destruct targs_trainable as [T _]. destruct T. constructor; auto. discriminate.
  - assert (K : check (tree_new P0 (with_max_depth cfg_class DNone) (targs_of Y6) env0) (fun _ => true) = true) by (vm_compute; reflexivity).
    revert K. generalize (tree_new P0 (with_max_depth cfg_class DNone) (targs_of Y6) env0). intros [r|x] K; [now exists r|discriminate K].
Qed.
Lemma no_depth_run : exists P M c a e t0 e0, trainable (with_max_depth c DInf) a 2 /\
  tc_max_depth c = DNone /\ varied (labels_at (ta_labels a) (train_rows a)) /\ tree_new P c a e = Ok (t0, e0) /\ tree_fit M c t0 (None, None) e0 = Err TypeError.
Proof.
  destruct no_depth_ready as [T [[t0 e0] E]]. exists P0, M0, (with_max_depth cfg_class DNone), (targs_of Y6), env0, t0, e0.
  split; [exact T|]. split; [reflexivity|]. split; [exists (z 0), (z 1); cbn; repeat split; auto; discriminate|]. split; [exact E|].
  apply (no_depth_raises P0 M0 (with_max_depth cfg_class DNone) (targs_of Y6) 2 env0 t0 e0 T); [reflexivity|discriminate|exact E].
Qed.

(** Eight rows, four groups of labels: three splits. *)
Definition args8 : targs :=
  {| ta_data := [[z 0; z 0]; [z 1; z 0]; [z 2; z 0]; [z 3; z 0]; [z 4; z 0]; [z 5; z 0]; [z 6; z 0]; [z 7; z 0]];
     ta_labels := [z 0; z 0; z 2; z 2; z 10; z 10; z 20; z 20]; ta_budget := None; ta_dd := None; ta_seed := 7; ta_idcs := None; ta_feats := None |}.
Definition cfg_reg8 : tcfg :=
  {| tc_class := false; tc_max_depth := DFin 3; tc_classes := []; tc_fsub := FSNone; tc_min_split := 2; tc_min_imp := frac (-1) 1000000;
     tc_max_leaves := None; tc_bin := IDENTITY; tc_nb := 10; tc_crit := MSE; tc_splitter := BEST; tc_solver := EXACT; tc_repl := false;
     tc_make_discrete := false; tc_minmax := None; tc_log_split := false; tc_dyn_eps := false; tc_eps := 0%Qc; tc_batch := 6 |}.
Definition cfg_reg8_three : tcfg :=
  {| tc_class := false; tc_max_depth := DFin 3; tc_classes := []; tc_fsub := FSNone; tc_min_split := 2; tc_min_imp := frac (-1) 1000000;
     tc_max_leaves := Some 3; tc_bin := IDENTITY; tc_nb := 10; tc_crit := MSE; tc_splitter := BEST; tc_solver := EXACT; tc_repl := false;
     tc_make_discrete := false; tc_minmax := None; tc_log_split := false; tc_dyn_eps := false; tc_eps := 0%Qc; tc_batch := 6 |}.

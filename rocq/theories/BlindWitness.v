(** Runs behind PropsBlind.v. *)
From Coq Require Import List Arith Bool ZArith QArith Qcanon Lia.
From Verif Require Import Base Num Rng Histogram Utils Criteria Solvers Tree Forest Samples Spec SolverSpec TreeSpec GrowSpec ForestSpec NumFacts ListFacts TreeWitness TrustWitness InvarWitness ForestWitness TrainWitness OrderWitness BlindThms.
Import ListNotations.
Local Open Scope nat_scope.

(** A forest of three bootstrapped trees, and a generator under which the global state is
    another one. *)
Lemma blind_forest_run : forest_reads_no_seed fc_re /\ forest_trainable fc_re (fst (start P1 fc_re T6)) (None, None) (heap_of T6) X6 2 /\ forest_bins fc_re X6 T6 2 2 /\
  e_np (snd (start P1 fc_re T6)) <> [8; 9] /\
  exists f h e, forest_fit M0 P1 fc_re (fst (start P1 fc_re T6)) (None, None) (heap_of T6) (snd (start P1 fc_re T6)) = Ok (f, h, e) /\ length (f_trees f) = 3 /\ exists x y v w g g', forest_predict fc_re f x = Ok (FReg v, g) /\ forest_predict fc_re f y = Ok (FReg w, g') /\ v <> w.
Proof.
  split; [repeat split; discriminate|]. split; [apply trainable_ex|]. split; [now apply bins_ex|]. split; [vm_compute; discriminate|].
  assert (K : check (forest_fit M0 P1 fc_re (fst (start P1 fc_re T6)) (None, None) (heap_of T6) (snd (start P1 fc_re T6))) (fun r => (length (f_trees (fst (fst r))) =? 3) &&
     check (forest_predict fc_re (fst (fst r)) [z 1; z 10]) (fun p => check (forest_predict fc_re (fst (fst r)) [z 6; z 10]) (fun q => match fst p, fst q with FReg v, FReg w => negb (qeq v w) | _, _ => false end))) = true) by (vm_compute; reflexivity).
  take K. destruct x as [[f h] e]. cbn [fst snd] in *. exists f, h, e. split; [assumption|]. apply andb_prop in K. destruct K as [K1 K]. split; [now apply Nat.eqb_eq|]. take K. take K. destruct x as [p g], x0 as [q g']. cbn [fst snd] in *. destruct p as [|v| |]; try discriminate K. destruct q as [|w| |]; try discriminate K.
  exists [z 1; z 10], [z 6; z 10], v, w, g, g'. split; [assumption|]. split; [assumption|]. intros ->. rewrite (proj2 (qeq_spec w w) eq_refl) in K. discriminate K.
Qed.
Lemma blind_tree_run : reads_no_seed (grow_cfg false 3) /\ trainable (grow_cfg false 3) eight 3 /\ memory_free (grow_cfg false 3) eight /\ exists t, built P0 M0 (grow_cfg false 3) eight env0 t /\ t_splits t = 3.
Proof.
  split; [repeat split; discriminate|]. split; [apply eight_trainable|]. split; [left; split; [reflexivity|split; [intros [Z|Z]; discriminate Z|exact Logic.I]]|].
  assert (K : check (run_with P0 M0 (grow_cfg false 3) eight env0) (fun t => t_splits t =? 3) = true) by (vm_compute; reflexivity).
  destruct (check_run _ _ K) as (t & E & Q). exists t. split; [now apply run_built|]. now apply Nat.eqb_eq.
Qed.

(** Trees that differ in their seed only. *)
Definition Ps : prng := {| seed_gen := draws; seed_np := draws; seed_py := draws |}.
Definition root_cut (t : tree) : option (nat * Qc) := match nth_error (t_nodes t) 0 with Some nd => match nd_sf nd, nd_sv nd with Some f, Some v => Some (f, v) | _, _ => None end | None => None end.
Definition cuts_differ (t t' : tree) : bool := match root_cut t, root_cut t' with Some (f, v), Some (f', v') => negb ((f =? f') && qeq v v') | _, _ => false end.
Lemma cuts_differ_spec t t' : cuts_differ t t' = true -> exists nd nd', node_at t 0 nd /\ node_at t' 0 nd' /\ (nd_sf nd, nd_sv nd) <> (nd_sf nd', nd_sv nd').
Proof.
  unfold cuts_differ, root_cut, node_at. destruct (nth_error (t_nodes t) 0) as [nd|]; [|discriminate]. destruct (nd_sf nd) eqn:A; [|discriminate]. destruct (nd_sv nd) eqn:B; [|discriminate].
  destruct (nth_error (t_nodes t') 0) as [nd'|]; [|discriminate]. destruct (nd_sf nd') eqn:A'; [|discriminate]. destruct (nd_sv nd') eqn:B'; [|discriminate]. intros H.
  exists nd, nd'. split; [reflexivity|]. split; [reflexivity|]. rewrite A, B, A', B'. intros E. injection E as -> ->. rewrite Nat.eqb_refl, (proj2 (qeq_spec _ _) eq_refl) in H. discriminate H.
Qed.
Definition seed_matters (c : tcfg) : Prop := exists P M a W e s s' t t' nd nd', trainable c a W /\ built P M c (with_seed a s None) e t /\ built P M c (with_seed a s' None) e t' /\
  node_at t 0 nd /\ node_at t' 0 nd' /\ (nd_sf nd, nd_sv nd) <> (nd_sf nd', nd_sv nd').
Lemma seeds_differ M c a W s s' : trainable c a W -> check (run_with Ps M c (with_seed a s None) env0) (fun t => check (run_with Ps M c (with_seed a s' None) env0) (fun t' => cuts_differ t t')) = true -> seed_matters c.
Proof.
  intros T K. destruct (check_run _ _ K) as (t & E & K1). destruct (check_run _ _ K1) as (t' & E' & K2). apply cuts_differ_spec in K2. destruct K2 as (nd & nd' & N & N' & Q).
  exists Ps, M, a, W, env0, s, s', t, t', nd, nd'. split; [exact T|]. split; [now apply run_built|]. split; [now apply run_built|]. auto.
Qed.
Lemma each_needed :
  (exists c, tc_solver c = EXACT /\ tc_bin c <> RANDOM /\ tc_fsub c = FSInt 1 /\ seed_matters c) /\
  (exists c, tc_solver c = EXACT /\ tc_bin c = RANDOM /\ tc_fsub c = FSNone /\ seed_matters c) /\
  (exists c, tc_solver c = MAB /\ tc_bin c = LINEAR /\ tc_fsub c = FSNone /\ seed_matters c).
Proof.
  split; [|split].
  - exists cfg_reg. repeat (split; [first [reflexivity|discriminate]|]). apply (seeds_differ M0 _ (targs_of T6) 2 1 2); [apply targs_trainable|vm_compute; reflexivity].
  - exists (tree_cfg false FSNone RANDOM EXACT 10). repeat (split; [first [reflexivity|discriminate]|]). apply (seeds_differ M0 _ (targs_of T6) 2 1 2); [|vm_compute; reflexivity].
    destruct targs_trainable as (_ & T & _). destruct T. constructor; try assumption; try exact Logic.I; discriminate.
  - exists cfg20. repeat (split; [first [reflexivity|discriminate]|]). apply (seeds_differ Msqrt _ (args20 (seq 0 20)) 2 11 1); [|vm_compute; reflexivity]. apply args20_trainable.
Qed.

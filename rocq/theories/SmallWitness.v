(** Runs behind the examples and refutation of PropsSmall.v. *)
From Coq Require Import List Arith Bool ZArith QArith Qcanon Lia.
From Verif Require Import Base Num Rng Histogram Utils Criteria Solvers Tree Forest Spec SolverSpec TreeSpec TrainSpec ForestSpec BanditSpec BatchSpec Samples NumFacts ListFacts TreeTotal TreeMore TreeWitness InvarWitness ForestWitness TrainWitness BudgetWitness BanditWitness BatchWitness.
Import ListNotations.
Local Open Scope nat_scope.

(** Six rows, the middle two of the other class: splitting before and after them is equally good. *)
Definition mid_args : targs := grow_args (line 6) [z 0; z 0; z 1; z 1; z 0; z 0].
Lemma mid_trainable cl sv d b : trainable (band_cfg cl sv d b) mid_args 1.
Proof.
  apply band_trainable; try reflexivity; try (cbn; lia); [apply line_rect|]. intros _ y I. cbn in I. repeat (destruct I as [<-|I]; [auto|]). destruct I.
Qed.
Lemma regr_trains d b : trainable (band_cfg false MAB d b) regr_args 1.
Proof. apply band_trainable; try reflexivity; try (cbn; lia); apply line_rect. Qed.
Definition root_at (v : Qc) (t : tree) : bool := match nth_error (t_nodes t) 0 with Some nd => match nd_left nd, nd_sv nd with Some _, Some w => qeq w v | _, _ => false end | None => false end.
Lemma root_at_spec v t : root_at v t = true -> exists nd, node_at t 0 nd /\ nd_sv nd = Some v.
Proof.
  unfold root_at, node_at. destruct (nth_error (t_nodes t) 0) as [nd|]; [|discriminate]. destruct (nd_left nd); [|discriminate]. destruct (nd_sv nd) as [w|] eqn:E; [|discriminate].
  intros H. apply qeq_spec in H. subst w. eauto.
Qed.
Lemma tie_differs : exists P M c c' a e t t' nd nd' W, trainable c a W /\ trainable c' a W /\ built P M c a e t /\ built P M c' a e t' /\ c = band_cfg true MAB 2 6 /\ c' = band_cfg true EXACT 2 6 /\
  length (train_rows a) <= tc_batch c /\ node_at t 0 nd /\ node_at t' 0 nd' /\ nd_sv nd <> nd_sv nd'.
Proof.
  exists P0, M0, (band_cfg true MAB 2 6), (band_cfg true EXACT 2 6), mid_args, env0.
  assert (K : check (run_with P0 M0 (band_cfg true MAB 2 6) mid_args env0) (root_at (z 3)) = true) by (vm_compute; reflexivity).
  assert (K' : check (run_with P0 M0 (band_cfg true EXACT 2 6) mid_args env0) (root_at (z 1)) = true) by (vm_compute; reflexivity).
  apply via in K. destruct K as [t [E K]]. apply via in K'. destruct K' as [t' [E' K']]. apply root_at_spec in K, K'. destruct K as [nd [A V]], K' as [nd' [A' V']].
  exists t, t', nd, nd', 1. split; [apply mid_trainable|]. split; [apply mid_trainable|]. split; [now apply run_built|]. split; [now apply run_built|]. do 2 (split; [reflexivity|]). split; [cbn; lia|]. split; [exact A|]. split; [exact A'|].
  rewrite V, V'. discriminate.
Qed.

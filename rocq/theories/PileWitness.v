(** A run behind PropsPile.v: Gini splits of real targets depend on where their zero is. *)
From Coq Require Import List Arith Bool ZArith QArith Qcanon Lia.
From Verif Require Import Base Num Rng Histogram Utils Criteria Solvers Spec SolverSpec Samples ForestWitness PileFacts.
Import ListNotations.
Local Open Scope nat_scope.

Definition sc_reg : scfg := {| s_class := false; s_measure := MSE; s_bin := IDENTITY; s_nb := 6; s_minmax := None; s_dd := None |}.
Lemma reg_solvable Y : length Y = 6 -> solvable sc_reg X6 Y 2.
Proof.
  intros L. constructor; try exact Logic.I.
  - intros r I. cbn in I. repeat (destruct I as [<-|I]; [reflexivity|]). destruct I.
  - discriminate.
  - exact L.
  - now left.
Qed.
Definition splits_at (m : measure) (Y : list Qc) (v : Qc) : bool :=
  check (solve_exactly M0 (with_measure sc_reg m) X6 Y 0%Qc env0) (fun r => match fst r with Found f w _ _ => (f =? 0) && qeq w v | _ => false end).
Lemma splits_run m Y v : splits_at m Y v = true -> exists r q e1, solve_exactly M0 (with_measure sc_reg m) X6 Y 0%Qc env0 = Ok (Found 0 v r q, e1).
Proof.
  intros K. unfold splits_at in K. take K. destruct x as [[f w r q|q] e1]; [|discriminate]. cbn [fst] in K. apply andb_prop in K. destruct K as [K1 K2].
  apply Nat.eqb_eq in K1. apply NumFacts.qeq_spec in K2. subst. eauto.
Qed.
Definition T6_shifted : list Qc := map (fun y => (y + z (-7))%Qc) T6.
Lemma gini_shift : exists c data labels W d r q e1 r' q' e1' r2 q2 e2 r3 q3 e3 v v', solvable c data labels W /\ s_class c = false /\ v <> v' /\
  solve_exactly M0 (with_measure c GINI) data labels 0%Qc env0 = Ok (Found 0 v r q, e1) /\
  solve_exactly M0 (with_measure c GINI) data (map (fun y => (y + d)%Qc) labels) 0%Qc env0 = Ok (Found 0 v' r' q', e1') /\
  solve_exactly M0 c data labels 0%Qc env0 = Ok (Found 0 v r2 q2, e2) /\
  solve_exactly M0 c data (map (fun y => (y + d)%Qc) labels) 0%Qc env0 = Ok (Found 0 v r3 q3, e3).
Proof.
  assert (A1 : splits_at GINI T6 (z 3) = true) by (vm_compute; reflexivity). assert (A2 : splits_at GINI T6_shifted (z 4) = true) by (vm_compute; reflexivity).
  assert (A3 : splits_at MSE T6 (z 3) = true) by (vm_compute; reflexivity). assert (A4 : splits_at MSE T6_shifted (z 3) = true) by (vm_compute; reflexivity).
  apply splits_run in A1, A2, A3, A4. destruct A1 as (r1 & q1 & e1 & A1), A2 as (r2 & q2 & e2 & A2), A3 as (r3 & q3 & e3 & A3), A4 as (r4 & q4 & e4 & A4).
  exists sc_reg, X6, T6, 2, (z (-7)), r1, q1, e1, r2, q2, e2, r3, q3, e3, r4, q4, e4, (z 3), (z 4).
  split; [apply reg_solvable; reflexivity|]. split; [reflexivity|]. split; [intros Q; apply (f_equal (fun x => qeq x (z 3))) in Q; discriminate|].
  split; [exact A1|]. split; [exact A2|]. split; [exact A3|exact A4].
Qed.

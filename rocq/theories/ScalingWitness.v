(** Runs behind the examples of PropsScaling.v. *)
From Coq Require Import List Arith Bool ZArith QArith Qcanon Lia.
From Verif Require Import Base Num Rng Histogram Utils Criteria Solvers Tree Forest Wrappers Compare Scaling Spec SolverSpec TreeSpec ForestSpec ScalingSpec Samples TreeWitness InvarWitness ForestWitness.
Import ListNotations.
Local Open Scope nat_scope.

(** Six rows and two columns, two fitting seeds, subsamples of 3, 6 and 9 rows. *)
Definition six_sweep (cl : bool) : option (list (nat * option Q)) :=
  match investigate M0 P1 cl X6 Y6 2 [3; 6; 9] env0 with Ok (t, _) => Some (map (fun p => (fst p, match snd p with Fin q => Some (this q) | _ => None end)) t) | Err _ => None end.
Lemma six_rect : rectangular 2 X6.
Proof. intros r I. cbn in I. repeat (destruct I as [<-|I]; [reflexivity|]). destruct I. Qed.
Lemma six_whole : forall y, In y Y6 -> trunc y = y.
Proof. intros y I. cbn in I. repeat (destruct I as [<-|I]; [now apply Qc_is_canon|]). destruct I. Qed.

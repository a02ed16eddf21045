(** Runs behind PropsTwice.v. *)
From Coq Require Import List Arith Bool ZArith QArith Qcanon Lia.
From Verif Require Import Base Num Rng Histogram Utils Criteria Solvers Tree Forest Samples Spec SolverSpec TreeSpec ForestSpec NestSpec NumFacts TreeWitness TrustWitness InvarWitness ForestWitness TrainWitness OrderWitness.
Import ListNotations.
Local Open Scope nat_scope.

Definition constant_eight : targs := grow_args (ta_data eight) (map (fun _ => z 3) (ta_labels eight)).
Lemma twice_runs : train_rows eight <> [] /\ ta_budget eight = None /\
  (forall m, In m [None; Some 4; Some 5] -> exists t, built P0 M0 (with_leaf_limit (grow_cfg false 3) m) eight env0 t /\ t_splits t = 3 /\ length (t_leaves t) = 4) /\
  exists t, built P0 M0 (grow_cfg false 3) constant_eight env0 t /\ t_splits t = 0.
Proof.
  split; [discriminate|]. split; [reflexivity|]. split.
  - intros m I. assert (K : check (run_with P0 M0 (with_leaf_limit (grow_cfg false 3) m) eight env0) (fun t => (t_splits t =? 3) && (length (t_leaves t) =? 4)) = true) by (destruct I as [<-|[<-|[<-|[]]]]; vm_compute; reflexivity).
    destruct (check_run _ _ K) as (t & E & Q). apply andb_prop in Q. destruct Q as [Q1 Q2]. exists t. split; [now apply run_built|]. split; now apply Nat.eqb_eq.
  - assert (K : check (run_with P0 M0 (grow_cfg false 3) constant_eight env0) (fun t => t_splits t =? 0) = true) by (vm_compute; reflexivity).
    destruct (check_run _ _ K) as (t & E & Q). exists t. split; [now apply run_built|]. now apply Nat.eqb_eq.
Qed.

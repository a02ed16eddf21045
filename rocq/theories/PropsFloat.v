(** * Theorems about LINEAR bins in IEEE doubles: C65 and C132 *)
From Coq Require Import ZArith Reals Lia.
From Flocq Require Import Core.
From Flocq Require Import IEEE754.BinarySingleNaN.
From Verif Require Import FloatBin FloatSpec FloatFacts.
Local Open Scope R_scope.

(** ** C65.  A value counts as left of an edge exactly when it is at most the edge.  In doubles this
    is false in both directions, also for whole numbers, and by several bins for a narrow range far
    from zero. *)
Theorem C65_agreement_refuted :
  (exists mn mx nb i, (2 <= nb)%nat /\ (i < nb)%nat /\ let e := fedge mn mx nb i in
     fin e /\ val mn <= val e <= val mx /\ ~ counted_left mn mx nb e i) /\
  (exists mn mx nb v i, (2 <= nb)%nat /\ (i < nb)%nat /\ fin (fedge mn mx nb i) /\ fin v /\
     val (fedge mn mx nb i) < val v <= val mx /\ counted_left mn mx nb v i) /\
  (exists top nb : nat, (2 <= nb)%nat /\ forall i, (i < nb)%nat ->
     fedge (fnat 0) (fnat top) nb (nb - 1) = fnat top /\ ~ counted_left (fnat 0) (fnat top) nb (fnat top) i) /\
  (exists mn mx nb i, fin mn /\ fin mx /\ val mn < val mx /\ (i + 4 <= nb - 1)%nat /\
     forall j, (i <= j < i + 4)%nat -> fedge mn mx nb j = mx /\ ~ counted_left mn mx nb mx j).
Proof. exact floats_disagree. Qed.
Print Assumptions C65_agreement_refuted.

(** What is true: when the bins are wide compared with the rounding of their ends, a value further
    from an edge than a 128th of a bin is on the side of the edge it is counted on.  Missing: values
    nearer the edge. *)
Theorem C65_agreement_partial : forall mn mx nb i v,
  roomy mn mx nb -> (i < nb)%nat -> fin v -> val mn <= val v <= val mx ->
  (val v + val (fwidth mn mx nb) / 128 <= val (fedge mn mx nb i) -> counted_left mn mx nb v i) /\
  (val (fedge mn mx nb i) + val (fwidth mn mx nb) / 128 <= val v -> ~ counted_left mn mx nb v i).
Proof. exact near_bin_left. Qed.
Print Assumptions C65_agreement_partial.
Example C65_partial_ex : roomy (fnat 0) (fnat 1) 11.
Proof. exact unit_roomy. Qed.

(** ** C132.  In doubles a value is always given an index, of two values the smaller never gets the
    larger index, and no value up to the minimum leaves the first bin; for any bins of positive
    width. *)
Theorem C132_order_kept : forall mn mx nb v v',
  fin mn -> fin (fwidth mn mx nb) -> 0 < val (fwidth mn mx nb) -> fin v -> fin v' -> val v <= val v' ->
  exists a a', fbin mn mx nb v = Some a /\ fbin mn mx nb v' = Some a' /\ (a <= a' <= nb)%nat.
Proof. exact bin_mono. Qed.
Print Assumptions C132_order_kept.

Theorem C132_minimum_first : forall mn mx nb v,
  fin mn -> fin (fwidth mn mx nb) -> 0 < val (fwidth mn mx nb) -> fin v -> val v <= val mn ->
  fbin mn mx nb v = Some 0%nat.
Proof. exact bin_min. Qed.
Print Assumptions C132_minimum_first.

Example C132_ex : fin (fnat 0) /\ fin (fwidth (fnat 0) (fnat 11) 16) /\ 0 < val (fwidth (fnat 0) (fnat 11) 16) /\
  fbin (fnat 0) (fnat 11) 16 (fnat 5) = Some 7%nat /\ fbin (fnat 0) (fnat 11) 16 (fnat 11) = Some 16%nat.
Proof.
  split; [vm_compute; reflexivity|]. split; [vm_compute; reflexivity|]. split; [exact wide_pos|].
  split; vm_compute; reflexivity.
Qed.

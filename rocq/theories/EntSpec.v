(** Specification vocabulary for the entropy, over the real numbers. *)
From Coq Require Import List Arith Bool QArith Qcanon Qreals Reals.
From Verif Require Import Spec.
Import ListNotations.
Local Open Scope R_scope.

Definition real (q : Qc) : R := Q2R (this q).
Fixpoint rtotal (l : list R) : R := match l with [] => 0 | a :: t => a + rtotal t end.

(** Entropy -sum p ln p of a vector of class counts (a class without rows contributes 0) and
    of a list of labels. *)
Definition share (c n : nat) : R := INR c / INR n.
Definition entropy_of (counts : list nat) : R :=
  - rtotal (map (fun c => share c (list_sum counts) * ln (share c (list_sum counts))) counts).
Definition label_entropy (ls : list Qc) : R :=
  - rtotal (map (fun c => share (occurrences c ls) (length ls) * ln (share (occurrences c ls) (length ls))) (nodup Qc_eq_dec ls)).

(** The counts of two disjoint sets of rows together. *)
Definition merged (a b : list nat) : list nat := map (fun ab => (fst ab + snd ab)%nat) (combine a b).

(** A logarithm on (0,1] that is off by at most eps. *)
Definition log_within (log : Qc -> Qc) (eps : R) : Prop :=
  0 <= eps /\ forall q, (0 < q)%Qc -> (q <= 1)%Qc -> Rabs (real (log q) - ln (real q)) <= eps.

(** What a split changes: the weighted entropy of the sides minus the entropy of the whole. *)
Definition entropy_change (T : table) (f : nat) (v : Qc) : R :=
  let L := labels_of (left_part f v T) in let G := labels_of (right_part f v T) in
  share (length L) (length T) * label_entropy L + share (length G) (length T) * label_entropy G - label_entropy (labels_of T).

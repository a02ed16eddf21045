(** Specification vocabulary: what the English properties talk about, written without any
    of the model's helpers.  A table is a list of rows, each a pair of feature values and a
    label. *)
From Coq Require Import List Arith Bool ZArith QArith Qround Qcanon Lia.
Import ListNotations.
Local Open Scope nat_scope.

(** Numbers of things as rationals. *)
Definition rat (n : nat) : Qc := Q2Qc (inject_Z (Z.of_nat n)).

Fixpoint total (l : list Qc) : Qc :=
  match l with [] => 0%Qc | a :: t => (a + total t)%Qc end.

(** Mean and (population) variance. *)
Definition mean (l : list Qc) : Qc := (total l / rat (length l))%Qc.
Definition variance (l : list Qc) : Qc :=
  (total (map (fun y => (y - mean l) * (y - mean l))%Qc l) / rat (length l))%Qc.

(** How often a value occurs, and as a fraction. *)
Definition occurrences (c : Qc) (l : list Qc) : nat := count_occ Qc_eq_dec l c.
Definition fraction (c : Qc) (l : list Qc) : Qc := (rat (occurrences c l) / rat (length l))%Qc.

(** Gini impurity and entropy (with a given logarithm) of a list of labels. *)
Definition gini (l : list Qc) : Qc :=
  (1 - total (map (fun c => fraction c l * fraction c l)%Qc (nodup Qc_eq_dec l)))%Qc.
Definition entropy (log : Qc -> Qc) (l : list Qc) : Qc :=
  total (map (fun c => - (log (fraction c l)) * fraction c l)%Qc (nodup Qc_eq_dec l)).

(** The Gini formula applied to number, mean and variance as if they were counts of three classes: what a
    regression tree gets when it is asked for Gini impurity. *)
Definition whole_part (q : Qc) : Z := if Qclt_le_dec q 0%Qc then (- Qfloor (- q)%Qc)%Z else Qfloor q.
Definition lump (l : list Qc) : Qc :=
  let n := (Z.of_nat (length l) + whole_part (mean l) + whole_part (variance l))%Z in
  let d (x : Qc) := (x / Q2Qc (inject_Z n))%Qc in
  if (n =? 0)%Z then 1%Qc
  else (1 - (d (rat (length l)) * d (rat (length l)) + d (mean l) * d (mean l) + d (variance l) * d (variance l)))%Qc.

(** Rows, and the two sides of a split "feature f <= v". *)
Definition row := (list Qc * Qc)%type.
Definition table := list row.
Definition value_of (f : nat) (r : row) : Qc := nth f (fst r) 0%Qc.
Definition is_left (f : nat) (v : Qc) (r : row) : bool :=
  if Qclt_le_dec v (value_of f r) then false else true.
Definition left_part (f : nat) (v : Qc) (T : table) : table := filter (is_left f v) T.
Definition right_part (f : nat) (v : Qc) (T : table) : table :=
  filter (fun r => negb (is_left f v r)) T.
Definition labels_of (T : table) : list Qc := map snd T.
Definition column (f : nat) (T : table) : list Qc := map (value_of f) T.

(** Weighted impurity of the two sides minus the impurity of the whole, negative when the
    split helps (the sign convention of the code). *)
Definition reduction (imp : list Qc -> Qc) (T : table) (f : nat) (v : Qc) : Qc :=
  let n := rat (length T) in
  let L := left_part f v T in
  let R := right_part f v T in
  (rat (length L) / n * imp (labels_of L) + rat (length R) / n * imp (labels_of R)
   - imp (labels_of T))%Qc.

(** A rectangular table of width W. *)
Definition rectangular (W : nat) (data : list (list Qc)) : Prop :=
  forall r, In r data -> length r = W.

(** ** Vocabulary for the helper functions *)

(** The distinct values of a list, and one feature's values. *)
Definition distinct (l : list Qc) : list Qc := nodup Qc_eq_dec l.
Definition feature_values (f : nat) (data : list (list Qc)) : list Qc := map (fun r => nth f r 0%Qc) data.

(** Row-major order on (feature, bin) pairs. *)
Definition row_major (a b : nat * nat) : Prop := fst a < fst b \/ fst a = fst b /\ snd a < snd b.

(** The smallest whole number that is at least x. *)
Definition rounds_up (x : Qc) (k : nat) : Prop :=
  (x <= rat k)%Qc /\ forall j, (x <= rat j)%Qc -> k <= j.

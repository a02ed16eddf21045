(** * Specification of binning in IEEE doubles, in terms of the real values of the numbers *)
From Coq Require Import ZArith Reals.
From Flocq Require Import Core.
From Flocq Require Import IEEE754.BinarySingleNaN.
From Verif Require Import FloatBin.
Local Open Scope R_scope.

(** The real number a double stands for, and being neither infinite nor NaN. *)
Definition val (x : f64) : R := B2R x.
Definition fin (x : f64) : Prop := is_finite x = true.

(** The value v is counted on the left of edge i: its bin index is at most i
    (histogram.py:140-160, [insert_idcs <= b]). *)
Definition counted_left (mn mx : f64) (nb : nat) (v : f64) (i : nat) : Prop :=
  exists a, fbin mn mx nb v = Some a /\ (a <= i)%nat.

(** The bins are wide compared with the rounding of their ends. *)
Record roomy (mn mx : f64) (nb : nat) : Prop := {
  r_mn : fin mn; r_mx : fin mx; r_w : fin (fwidth mn mx nb);
  r_two : (2 <= nb)%nat; r_nb : (Z.of_nat nb <= 2 ^ 41)%Z;
  r_lo : bpow radix2 (-1000) <= val (fwidth mn mx nb); r_hi : val (fwidth mn mx nb) <= bpow radix2 900;
  r_amn : Rabs (val mn) <= bpow radix2 40 * val (fwidth mn mx nb);
  r_amx : Rabs (val mx) <= bpow radix2 40 * val (fwidth mn mx nb) }.


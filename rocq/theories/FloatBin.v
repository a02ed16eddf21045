(** * LINEAR bins in IEEE double arithmetic

    The rest of the model computes with exact numbers.  Here the two pieces of code that place a
    value among LINEAR bin edges are modelled again, this time with Flocq's binary64 numbers, every
    operation rounding to nearest even as numpy's float64 does. *)
From Coq Require Import ZArith Bool.
From Flocq Require Import IEEE754.BinarySingleNaN.
Local Open Scope nat_scope.

Definition f64 : Set := binary_float 53 1024.
#[global] Instance prec_ok : FLX.Prec_gt_0 53 := eq_refl.
#[global] Instance emax_ok : Prec_lt_emax 53 1024 := eq_refl.

Definition fsub (x y : f64) : f64 := Bminus mode_NE x y.
Definition fadd (x y : f64) : f64 := Bplus mode_NE x y.
Definition fmul (x y : f64) : f64 := Bmult mode_NE x y.
Definition fdiv (x y : f64) : f64 := Bdiv mode_NE x y.
(** The double nearest to m * 2^e. *)
Definition fscale (m e : Z) : f64 := binary_normalize 53 1024 prec_ok emax_ok mode_NE m e false.
(** A count as a double (num_bins - 1 and numpy's arange). *)
Definition fnat (n : nat) : f64 := fscale (Z.of_nat n) 0.

(** np.ceil of a finite number sign * m * 2^e, as an integer. *)
Definition ceil_of (s : bool) (m : positive) (e : Z) : Z :=
  let sm := if s then Zneg m else Zpos m in
  if (0 <=? e)%Z then (sm * 2 ^ e)%Z else (- ((- sm) / 2 ^ (- e)))%Z.

(** bin_width in get_bin, histogram.py:81; the step of np.linspace is computed alike. *)
Definition fwidth (mn mx : f64) (nb : nat) : f64 := fdiv (fsub mx mn) (fnat (nb - 1)).

(** linear_bin, histogram.py:180-184: np.linspace(min, max, num).  Point i is i * step + min and the
    last point is set to max.  (numpy takes another formula when the step is zero; theorems here
    are about positive steps.) *)
Definition fedge (mn mx : f64) (nb i : nat) : f64 :=
  if (i =? nb - 1) && (1 <? nb) then mx else fadd (fmul (fnat i) (fwidth mn mx nb)) mn.

(** The LINEAR branch of get_bin, histogram.py:80-86, for one value.  [None] is NaN, which compares
    false with every edge index. *)
Definition fbin (mn mx : f64) (nb : nat) (v : f64) : option nat :=
  match fdiv (fsub v mn) (fwidth mn mx nb) with
  | B754_nan => None
  | B754_infinity s => Some (if s then 0 else nb)
  | B754_zero _ => Some 0
  | B754_finite s m e _ =>
      let c := ceil_of s m e in
      Some (if (c <? 0)%Z then 0 else if (Z.of_nat (nb - 1) <? c)%Z then nb else Z.to_nat c)
  end.

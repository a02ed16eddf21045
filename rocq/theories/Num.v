(** Numbers: exact rationals for finite values, IEEE special values on top. *)
From Coq Require Import List Arith Bool ZArith QArith Qcanon Qround Lia.
From Verif Require Import Base.
Import ListNotations.

Local Open Scope Qc_scope.

(** Boolean comparisons. *)
Definition qle (a b : Qc) : bool := Qle_bool a b.
Definition qlt (a b : Qc) : bool := negb (Qle_bool b a).
Definition qeq (a b : Qc) : bool := Qeq_bool a b.

Definition Zq (z : Z) : Qc := Q2Qc (inject_Z z).
Definition Nq (n : nat) : Qc := Zq (Z.of_nat n).

(** [math.ceil], [int()] of a non-negative number. *)
Definition qceil (a : Qc) : Z := Qceiling a.
Definition qfloor (a : Qc) : Z := Qfloor a.

Fixpoint qsum (l : list Qc) : Qc :=
  match l with [] => 0 | a :: t => a + qsum t end.

(** [np.mean], [np.var] of a non-empty array (on an empty one numpy gives nan: the callers
    modelled here never reach that, which their own comments justify). *)
Definition qmean (l : list Qc) : Qc := qsum l / Nq (length l).
Definition qvar (l : list Qc) : Qc :=
  let m := qmean l in qsum (map (fun y => (y - m) * (y - m)) l) / Nq (length l).

(** [np.min], [np.max] of a non-empty list (first argument: the head). *)
Definition qmin2 (a b : Qc) : Qc := if qle a b then a else b.
Definition qmax2 (a b : Qc) : Qc := if qle a b then b else a.
Definition qmin_list (a : Qc) (l : list Qc) : Qc := fold_left qmin2 l a.
Definition qmax_list (a : Qc) (l : list Qc) : Qc := fold_left qmax2 l a.

(** Insertion in increasing order without duplicates: [np.unique]. *)
Fixpoint uinsert (a : Qc) (l : list Qc) : list Qc :=
  match l with
  | [] => [a]
  | b :: t => if qlt a b then a :: l else if qeq a b then l else b :: uinsert a t
  end.
Definition unique (l : list Qc) : list Qc := fold_right uinsert [] l.

(** Insertion sort with duplicates: [np.sort]. *)
Fixpoint sinsert (a : Qc) (l : list Qc) : list Qc :=
  match l with
  | [] => [a]
  | b :: t => if qle a b then a :: l else b :: sinsert a t
  end.
Definition qsort (l : list Qc) : list Qc := fold_right sinsert [] l.

(** [tuple.index] / first position of a value. *)
Fixpoint qindex (a : Qc) (l : list Qc) : option nat :=
  match l with
  | [] => None
  | b :: t => if qeq a b then Some 0%nat else option_map S (qindex a t)
  end.

Definition qmem (a : Qc) (l : list Qc) : bool := existsb (qeq a) l.

(** ** Extended numbers *)
Inductive xn : Type := Fin (q : Qc) | PInf | NInf | NaN.

Definition xsign (a : Qc) : comparison := Qccompare a 0.

Definition xadd (a b : xn) : xn :=
  match a, b with
  | NaN, _ | _, NaN => NaN
  | Fin x, Fin y => Fin (x + y)
  | PInf, NInf | NInf, PInf => NaN
  | PInf, _ | _, PInf => PInf
  | NInf, _ | _, NInf => NInf
  end.

Definition xopp (a : xn) : xn :=
  match a with Fin x => Fin (- x) | PInf => NInf | NInf => PInf | NaN => NaN end.

Definition xsub (a b : xn) : xn := xadd a (xopp b).

(** infinity times a finite number, given its sign *)
Definition xinf_mul (pos : bool) (c : comparison) : xn :=
  match c with
  | Eq => NaN
  | Gt => if pos then PInf else NInf
  | Lt => if pos then NInf else PInf
  end.

Definition xmul (a b : xn) : xn :=
  match a, b with
  | NaN, _ | _, NaN => NaN
  | Fin x, Fin y => Fin (x * y)
  | PInf, Fin y => xinf_mul true (xsign y)
  | NInf, Fin y => xinf_mul false (xsign y)
  | Fin x, PInf => xinf_mul true (xsign x)
  | Fin x, NInf => xinf_mul false (xsign x)
  | PInf, PInf | NInf, NInf => PInf
  | PInf, NInf | NInf, PInf => NInf
  end.

(** Division; dividing by zero gives an infinity of the dividend's sign (the model has no
    negative zero: every denominator used below is a non-negative count or a product of
    integers, whose zeros are +0 in numpy), 0/0 gives NaN. *)
Definition xdiv (a b : xn) : xn :=
  match a, b with
  | NaN, _ | _, NaN => NaN
  | Fin x, Fin y =>
      if qeq y 0 then xinf_mul true (xsign x) else Fin (x / y)
  | Fin _, PInf | Fin _, NInf => Fin 0
  | PInf, Fin y => if qeq y 0 then PInf else xinf_mul true (xsign y)
  | NInf, Fin y => if qeq y 0 then NInf else xinf_mul false (xsign y)
  | _, _ => NaN
  end.

(** Comparisons: anything with NaN is false. *)
Definition xlt (a b : xn) : bool :=
  match a, b with
  | Fin x, Fin y => qlt x y
  | NInf, Fin _ | NInf, PInf | Fin _, PInf => true
  | _, _ => false
  end.
Definition xeq (a b : xn) : bool :=
  match a, b with
  | Fin x, Fin y => qeq x y
  | PInf, PInf | NInf, NInf => true
  | _, _ => false
  end.
Definition xle (a b : xn) : bool := xlt a b || xeq a b.

Definition is_nan (a : xn) : bool := match a with NaN => true | _ => false end.
Definition is_fin (a : xn) : bool := match a with Fin _ => true | _ => false end.

(** [np.nan_to_num(a, nan=0, posinf=0, neginf=0)]. *)
Definition nan_to_num (a : xn) : Qc := match a with Fin x => x | _ => 0 end.

(** [np.sum] along an axis. *)
Definition xsum (l : list xn) : xn := fold_right xadd (Fin 0) l.

(** [ndarray.min()]: NaN propagates. *)
Definition xmin2 (a b : xn) : xn :=
  if is_nan a then NaN else if is_nan b then NaN else if xlt b a then b else a.
Definition xmin_list (l : list xn) : res xn :=
  match l with [] => Err ValueError | a :: t => Ok (fold_left xmin2 t a) end.

(** [np.nanmin]: NaN ignored (all-NaN gives NaN). *)
Definition xnanmin2 (a b : xn) : xn :=
  if is_nan a then b else if is_nan b then a else if xlt b a then b else a.
Definition xnanmin_list (l : list xn) : res xn :=
  match l with [] => Err ValueError | a :: t => Ok (fold_left xnanmin2 t a) end.

(** [ndarray.argmin()] (flat index): the first NaN if any, else the first minimum. *)
Fixpoint argmin_from (i best : nat) (bv : xn) (l : list xn) : nat :=
  match l with
  | [] => best
  | a :: t =>
      if is_nan bv then best
      else if is_nan a then i
      else if xlt a bv then argmin_from (S i) i a t else argmin_from (S i) best bv t
  end.
Definition argmin (l : list xn) : res nat :=
  match l with [] => Err ValueError | a :: t => Ok (argmin_from 1 0 a t) end.

(** [ndarray.argmax()] of finite numbers: first maximum. *)
Fixpoint argmax_from (i best : nat) (bv : Qc) (l : list Qc) : nat :=
  match l with
  | [] => best
  | a :: t => if qlt bv a then argmax_from (S i) i a t else argmax_from (S i) best bv t
  end.
Definition argmax (l : list Qc) : res nat :=
  match l with [] => Err ValueError | a :: t => Ok (argmax_from 1 0 a t) end.

(** Square root and logarithm as the platform computes them: arbitrary functions on finite
    non-negative (positive) arguments. *)
Record math : Type := { m_sqrt : Qc -> Qc; m_log : Qc -> Qc }.

Definition xsqrt (M : math) (a : xn) : xn :=
  match a with
  | Fin x => if qlt x 0 then NaN else Fin (m_sqrt M x)
  | PInf => PInf
  | NInf | NaN => NaN
  end.

(** [np.log]. *)
Definition xlog (M : math) (a : Qc) : xn :=
  if qlt a 0 then NaN else if qeq a 0 then NInf else Fin (m_log M a).

(** Concrete data used by the examples beside the theorems. *)
From Coq Require Import List Arith Bool ZArith QArith Qcanon.
From Verif Require Import Base Num Rng Histogram Utils Criteria Solvers Tree Forest.
Import ListNotations.
Local Open Scope nat_scope.

Definition z (k : Z) : Qc := Q2Qc (inject_Z k).
Definition frac (a : Z) (b : positive) : Qc := Q2Qc (a # b).

(** A mathematics whose square root and logarithm are zero: enough to run the solvers. *)
Definition M0 : math := {| m_sqrt := fun _ => 0%Qc; m_log := fun _ => 0%Qc |}.

Definition junk0 : junk :=
  {| j_est := fun _ _ => NaN; j_lcb := fun _ _ => NaN; j_ucb := fun _ _ => NaN |}.
Definition env0 : env :=
  {| e_gen := []; e_np := [3; 5; 1; 2; 7; 1; 4; 4]; e_py := [1]; e_mem := fun _ => junk0; e_calls := 0 |}.

(** Six rows, two features, two classes. *)
Definition X6 : list (list Qc) :=
  [[z 1; z 10]; [z 2; z 20]; [z 3; z 10]; [z 4; z 20]; [z 5; z 10]; [z 6; z 20]].
Definition Y6 : list Qc := [z 0; z 0; z 0; z 1; z 1; z 1].
(** Real-valued targets for the same rows. *)
Definition T6 : list Qc := [z 1; z 2; z 2; z 5; z 7; z 8].

Definition is_err {A} (r : res A) (e : exn) : bool :=
  match r, e with
  | Err AssertionError, AssertionError | Err TypeError, TypeError | Err KeyError, KeyError
  | Err IndexError, IndexError | Err AttributeError, AttributeError | Err ValueError, ValueError
  | Err ZeroDivisionError, ZeroDivisionError | Err NotImplementedError, NotImplementedError
  | Err GenericException, GenericException | Err UnboundLocalError, UnboundLocalError
  | Err OutOfFuel, OutOfFuel | Err Unmodelled, Unmodelled => true
  | _, _ => false
  end.
(** Apply a boolean check to a successful result. *)
Definition check {A} (r : res A) (p : A -> bool) : bool :=
  match r with Ok a => p a | Err _ => false end.

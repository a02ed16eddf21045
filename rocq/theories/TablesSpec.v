(** Vocabulary for the claims about the tables and the scaling plot. *)
From Coq Require Import List ZArith QArith Qcanon.
From Verif Require Import Num Compare Spec.
Import ListNotations.
Local Open Scope nat_scope.

(** Multiples of 1/1000. *)
Definition thousandth (q : Qc) : Prop := exists k : Z, (q * rat 1000)%Qc = Q2Qc (inject_Z k).
Definition off (p q : Qc) : Qc := ((p - q) * (p - q))%Qc.
(** No multiple of 1/1000 is closer. *)
Definition closest (q r : Qc) : Prop := thousandth r /\ forall p, thousandth p -> (off r q <= off p q)%Qc.

(** Straight lines through points. *)
Definition line_at (a b x : Qc) : Qc := (a + b * x)%Qc.
Definition misfit (a b : Qc) (xs ys : list Qc) : Qc := total (map (fun p => off (line_at a b (fst p)) (snd p)) (combine xs ys)).
Definition least_line (a b : Qc) (xs ys : list Qc) : Prop := forall a' b', (misfit a b xs ys <= misfit a' b' xs ys)%Qc.
(** n times the sum of products less the product of the sums. *)
Definition covar (xs ys : list Qc) : Qc :=
  (rat (length xs) * total (map (fun p => (fst p * snd p)%Qc) (combine xs ys)) - total xs * total ys)%Qc.

(** A figure as it is printed: the closest multiple of 1/1000; nan and infinities as they are. *)

Definition shown (x y : xn) : Prop := match x with Fin q => exists r, y = Fin r /\ closest q r | _ => y = x end.
Definition shows (st : stat) (c : xn * xn) : Prop := shown (st_avg st) (fst c) /\ shown (st_std st) (snd c).

(** Vocabulary for the claims about the heart experiment. *)
From Coq Require Import List QArith Qcanon Permutation.
From Verif Require Import Base Spec Heart.
Import ListNotations.
Local Open Scope nat_scope.

(** A table of n rows whose columns have different names, none of them a value of a column. *)
Definition frame_ok (df : frame) (n : nat) : Prop :=
  NoDup (map fst df) /\ (forall c v, In (c, v) df -> length v = n) /\ (forall u v, ~ In (Dummy u, v) df).

(** How many different values of v are below x. *)
Definition rank_in (v : list Qc) (x : Qc) : nat := length (filter (fun y => if Qclt_le_dec y x then true else false) (nodup Qc_eq_dec v)).
Definition coded (v w : list Qc) : Prop :=
  length w = length v /\ forall i x, nth_error v i = Some x -> nth_error w i = Some (rat (rank_in v x)).
(** The codes are in the order of the values. *)
Definition same_sense (v w : list Qc) : Prop := forall i j x y a b, nth_error v i = Some x -> nth_error v j = Some y ->
  nth_error w i = Some a -> nth_error w j = Some b -> ((a < b)%Qc <-> (x < y)%Qc).
Definition indicator (u : Qc) (v w : list Qc) : Prop :=
  length w = length v /\ forall i x, nth_error v i = Some x -> (x = u -> nth_error w i = Some 1%Qc) /\ (x <> u -> nth_error w i = Some 0%Qc).

(** Two closed intervals share a point. *)
Definition meet (i j : Qc * Qc) : Prop := exists x, (fst i <= x <= snd i)%Qc /\ (fst j <= x <= snd j)%Qc.

(** What scikit-learn documents of train_test_split: two parts of the rows, the second of
    ceil(size * n) rows. *)
Definition splits (tts : splitter_fn) : Prop := forall n q s a b, tts n q s = Ok (a, b) ->
  Permutation (a ++ b) (seq 0 n) /\ (rat n * q <= rat (length b))%Qc /\ (rat (length b) < rat n * q + 1)%Qc.
(** A part as its rows beside their labels. *)
Definition paired (p : list (list Qc) * list Qc) : list (list Qc * Qc) := combine (fst p) (snd p).
Definition aligned (p : list (list Qc) * list Qc) : Prop := length (fst p) = length (snd p).

(** Specification vocabulary for the errors of a forest and of its trees on a test set. *)
From Coq Require Import List Arith Bool ZArith QArith Qcanon Lia.
From Verif Require Import Base Num Rng Histogram Utils Criteria Solvers Tree Forest Spec SolverSpec TreeSpec ForestSpec.
Import ListNotations.
Local Open Scope nat_scope.

Definition squared (u y : Qc) : Qc := ((u - y) * (u - y))%Qc.

(** The number, or the list of probabilities, in an answer (the theorems state separately that
    the calls answer). *)
Definition tree_value (ct : tcfg * tree) (x : list Qc) : Qc :=
  match answer (tree_predict (fst ct) (snd ct) x) with Ok p => value_of p | Err _ => 0%Qc end.
Definition forest_value (c : fcfg) (f : forest) (x : list Qc) : Qc :=
  match answer (forest_predict c f x) with Ok (FReg v) => v | _ => 0%Qc end.
Definition tree_prob (ct : tcfg * tree) (x : list Qc) (j : nat) : Qc :=
  match answer (tree_predict (fst ct) (snd ct) x) with Ok p => prob_of p j | Err _ => 0%Qc end.
Definition forest_prob (c : fcfg) (f : forest) (x : list Qc) (j : nat) : Qc :=
  match answer (forest_predict c f x) with Ok (FClass _ avg) => nth j avg 0%Qc | _ => 0%Qc end.

(** Mean squared error of a predictor over points and targets. *)
Definition squared_error (g : list Qc -> Qc) (test : list (list Qc * Qc)) : Qc :=
  mean (map (fun p => squared (g (fst p)) (snd p)) test).
(** The Brier score: the squared distance of the probabilities of the classes from the truth, one
    for the right class and zero for the others. *)
Definition truth (classes : list Qc) (y : Qc) (j : nat) : Qc :=
  if Qc_eq_dec (nth j classes 0%Qc) y then 1%Qc else 0%Qc.
Definition brier (classes : list Qc) (g : list Qc -> nat -> Qc) (test : list (list Qc * Qc)) : Qc :=
  mean (map (fun p => total (map (fun j => squared (g (fst p) j) (truth classes (snd p) j)) (seq 0 (length classes)))) test).
(** The fraction of the points whose label is predicted. *)
Definition hits (says : list Qc -> option Qc) (test : list (list Qc * Qc)) : Qc :=
  mean (map (fun p => match says (fst p) with Some l => if Qc_eq_dec l (snd p) then 1%Qc else 0%Qc | None => 0%Qc end) test).
Definition tree_says (ct : tcfg * tree) (x : list Qc) : option Qc :=
  match answer (tree_predict (fst ct) (snd ct) x) with Ok (PClass l _) => Some l | _ => None end.
Definition forest_says (c : fcfg) (f : forest) (x : list Qc) : option Qc :=
  match answer (forest_predict c f x) with Ok (FClass l _) => Some l | _ => None end.

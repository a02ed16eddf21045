(** Specification vocabulary for the scores and the report of a comparison. *)
From Coq Require Import List Arith Bool ZArith QArith Qcanon.
From Verif Require Import Base Num Rng Histogram Utils Criteria Solvers Tree Forest Permutation Wrappers Compare Spec SolverSpec TreeSpec ForestSpec PermSpec StabSpec.
Import ListNotations.
Local Open Scope nat_scope.

(** The fraction of rows with the right label; nan without rows. *)
Definition accuracy (ps : list fpred) (ys : list Qc) (s : xn) : Prop :=
  exists n, hits_spec true ps ys n /\ (ys = [] /\ s = NaN \/ ys <> [] /\ s = Fin (rat n / rat (length ys))%Qc).
(** The mean squared error; nan without rows or if a prediction is nan. *)
Definition squared_error (ps : list fpred) (ys : list Qc) (s : xn) : Prop :=
  length ps = length ys /\
  ((exists vs, ps = map FReg vs /\ ys <> [] /\ s = Fin (mean (map (fun vy => (fst vy - snd vy) * (fst vy - snd vy))%Qc (combine vs ys)))) \/ (ys = [] \/ In FNanReg ps) /\ s = NaN).
Definition scored (cl : bool) (ps : list fpred) (ys : list Qc) (s : xn) : Prop := if cl then accuracy ps ys s else squared_error ps ys s.

(** The mean of finite numbers and its standard error. *)
Definition summary (M : math) (l : list Qc) : stat := {| st_avg := Fin (mean l); st_std := Fin (std_error M l) |}.
(** What a report says about the models of one side. *)
Definition summarises (M : math) (predict : bool) (d : side) (l : list entry) : Prop :=
  sd_queries d = summary M (map (fun a => rat (f_queries (en_forest a))) l) /\ sd_trees d = summary M (map (fun a => rat (length (f_trees (en_forest a)))) l) /\
  (forall q, map en_train l = map Fin q -> sd_train d = summary M q) /\ (forall q, predict = true -> map en_test l = map (fun x => Some (Fin x)) q -> sd_test d = Some (summary M q)).

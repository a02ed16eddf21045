(** Vocabulary for the claims about load_housing and the log analysis. *)
From Coq Require Import List ZArith QArith Qcanon.
From Verif Require Import Spec Logs.
Import ListNotations.
Local Open Scope nat_scope.

(** A log as a sequence of trials' counts, each followed by the line that names the size. *)
Definition counts_of (l : logline) : bool := match l with LOther => false | _ => true end.
Definition log_of (blocks : list (list Z * Z)) : list logline := concat (map (fun b => map LCount (fst b) ++ [LResults (snd b)]) blocks).
Definition written (log : list logline) (blocks : list (list Z * Z)) : Prop := filter counts_of log = log_of blocks.
Definition padded (n : nat) (l : list Z) : list Z := l ++ repeat 0%Z (n - length l).
Definition average (n : nat) (l : list Z) : Qc := (total (map (fun z => Q2Qc (inject_Z z)) l) / rat n)%Qc.

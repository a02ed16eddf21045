(** Model of load_housing of experiments/exp_utils.py (on a given table) and of
    experiments/snappy_analysis/analyze_output.py (on the lines of its log). *)
From Coq Require Import List Arith Bool ZArith QArith Qcanon.
From Verif Require Import Base Num Rng Utils.
Import ListNotations.
Local Open Scope nat_scope.

(** load_housing, exp_utils.py:60-77; [cut] is TRAIN_TEST_SPLIT, [g] the generator of seed 0. *)
Definition load_housing (cut : nat) (g : tape) (data : list (list Qc)) (targets : list Qc)
  : res (list (list Qc) * list Qc * list (list Qc) * list Qc) :=
  do r <- choice_norepl (arange (length data)) (length data) g;
  do d <- mapM (nth_res data) (fst r);
  do t <- mapM (nth_res targets) (fst r);
  Ok (firstn cut d, firstn cut t, skipn cut d, skipn cut t).

(** A line of the log: "Round count: n", "Results for ... n ..." or anything else. *)
Inductive logline := LCount (n : Z) | LResults (n : Z) | LOther.
Record logstate := { ls_rows : list (list Z); ls_sizes : list Z; ls_size : nat; ls_rc : nat }.
(** One line, analyze_output.py:11-18. *)
Definition log_step (s : logstate) (l : logline) : res logstate :=
  match l with
  | LCount n =>
      do row <- nth_res (ls_rows s) (ls_size s);
      do _ <- guard (ls_rc s <? length row) IndexError;
      Ok {| ls_rows := set_nth (ls_size s) (set_nth (ls_rc s) n row) (ls_rows s); ls_sizes := ls_sizes s; ls_size := ls_size s; ls_rc := S (ls_rc s) |}
  | LResults n => Ok {| ls_rows := ls_rows s; ls_sizes := ls_sizes s ++ [n]; ls_size := S (ls_size s); ls_rc := 0 |}
  | LOther => Ok s
  end.
(** main, analyze_output.py:4-28: the table, the sizes and the row means; [rows] and [cols] are
    NUM_SIZES and NUM_TRIALS. *)
Definition analyze_log (rows cols : nat) (log : list logline) : res (list (list Z) * list Z * list xn) :=
  do s <- foldM log_step {| ls_rows := repeat (repeat 0%Z cols) rows; ls_sizes := []; ls_size := 0; ls_rc := 0 |} log;
  Ok (ls_rows s, ls_sizes s, map (fun r => xdiv (Fin (qsum (map Zq r))) (Fin (Nq cols))) (ls_rows s)).

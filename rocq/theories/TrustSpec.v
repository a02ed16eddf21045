(** What it means for the confidence intervals of the bandit search to be right, and for its
    answer to be nearly best.  The intervals are internal to the search, so the states of its
    loop are named here; the actual change of a candidate and the quality of an answer are
    those of Spec.v and SolverSpec.v. *)
From Coq Require Import List Arith Bool ZArith QArith Qcanon Lia.
From Verif Require Import Base Num Rng Histogram Utils Criteria Solvers Spec SolverSpec ExactProps MabProps.
Import ListNotations.
Local Open Scope nat_scope.

(** [visited M k s0 s]: the search started in s0 is in state s at the end of one of its passes
    (solvers.py:352-452). *)
Inductive visited (M : math) (k : mcfg) : mstate -> mstate -> Prop :=
| visited_first s s' stop :
    5 < length (ms_cand s) -> mab_body M k s = Ok (s', stop) -> visited M k s s'
| visited_later s s1 s' :
    5 < length (ms_cand s) -> mab_body M k s = Ok (s1, false) -> visited M k s1 s' -> visited M k s s'.

(** Every interval [lcb, ucb] contains the actual change of its candidate. *)
Definition intervals_hold (red : nat -> Qc -> Qc) (W : nat) (E : nat -> list Qc) (s : mstate) : Prop :=
  forall f b v, f < W -> nth_error (E f) b = Some v ->
    exists l u, ms_lcb s f b = Fin l /\ ms_ucb s f b = Fin u /\ (l <= red f v)%Qc /\ (red f v <= u)%Qc.

(** Every candidate still considered has an estimate within [d] of its actual change. *)
Definition estimates_within (d : Qc) (red : nat -> Qc -> Qc) (E : nat -> list Qc) (s : mstate) : Prop :=
  forall f b v, In (f, b) (ms_cand s) -> nth_error (E f) b = Some v ->
    exists x, ms_est s f b = Fin x /\ (red f v - d <= x)%Qc /\ (x <= red f v + d)%Qc.

(** The answer is within [2 d] of the best; a refusal to split is wrong by at most [d]. *)
Definition near_best (d : Qc) (red : nat -> Qc -> Qc) (mir : Qc) (W : nat) (E : nat -> list Qc) (out : sres) : Prop :=
  match out with
  | Found f v r q => f < W /\ In v (E f) /\
      forall f' v', f' < W -> In v' (E f') -> (red f v <= red f' v' + (d + d))%Qc
  | NoSplit q => forall f' v', f' < W -> In v' (E f') -> (mir - d <= red f' v')%Qc
  end.

(** Every candidate still considered has an interval of width at most [2 d]. *)
Definition intervals_within (d : Qc) (E : nat -> list Qc) (s : mstate) : Prop :=
  forall f b v, In (f, b) (ms_cand s) -> nth_error (E f) b = Some v ->
    exists l u, ms_lcb s f b = Fin l /\ ms_ucb s f b = Fin u /\ (u - l <= d + d)%Qc.

(** The thresholds of the search, its actual changes, its first state (solvers.py:305-351). *)
Definition thresholds (mh : mhstate) : nat -> list Qc := edges_of (mh_hists mh).
Definition change (M : math) (c : scfg) (data : list (list Qc)) (labels : list Qc) : nat -> Qc -> Qc :=
  reduction (impurity M c) (combine data labels).
Definition search_cfg (c : scfg) (repl : bool) (budget : option Z) (batch : nat) (data : list (list Qc)) (labels : list Qc) (mir : Qc) (W : nat) : mcfg :=
  mab_cfg c 0 repl budget batch data labels mir W.
Definition search_start (c : scfg) (repl : bool) (data : list (list Qc)) (W : nat) (e0 : env) (mh : mhstate) : mstate :=
  mab_init c repl data W (e_mem e0 (e_calls e0)) mh (e_gen e0).

(** A search with tolerance 0 over more than five candidates, all of whose intervals are right. *)
Record honest_search (M : math) (c : scfg) (repl : bool) (budget : option Z) (batch : nat) (data : list (list Qc)) (labels : list Qc)
  (mir : Qc) (W : nat) (e0 : env) (mh : mhstate) : Prop := {
  hs_input : solvable c data labels W;
  hs_batch : 1 <= batch;
  hs_bins : make_histograms (s_class c) data labels (s_minmax c) (s_dd c) (s_bin c) (s_nb c) (e_np e0) = Ok mh;
  hs_many : 5 < arm_count W (thresholds mh);
  hs_right : forall s, visited M (search_cfg c repl budget batch data labels mir W) (search_start c repl data W e0 mh) s ->
     intervals_hold (change M c data labels) W (thresholds mh) s
}.
(** The state in which its loop ends. *)
Definition search_ends (M : math) (c : scfg) (repl : bool) (budget : option Z) (batch : nat) (data : list (list Qc)) (labels : list Qc)
  (mir : Qc) (W : nat) (e0 : env) (mh : mhstate) (s : mstate) : Prop :=
  mab_loop M (search_cfg c repl budget batch data labels mir W) (mab_fuel W (s_nb c) (length data)) (search_start c repl data W e0 mh) = Ok s.

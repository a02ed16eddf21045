(** Specification vocabulary for the stability experiments. *)
From Coq Require Import List Arith Bool ZArith QArith Qcanon.
From Verif Require Import Base Num Rng Histogram Utils Criteria Solvers Tree Forest Permutation Spec SolverSpec TreeSpec ForestSpec PermSpec.
Import ListNotations.
Local Open Scope nat_scope.

(** v is the stability of the k best features that a new object with settings c finds. *)
Definition finds (order : list Qc -> list nat) (M : math) (P : prng) (c : pcfg) (seed : nat) (k : Z) (h : heap) (e : env) (v : xn) : Prop :=
  exists s e0 s' h' e', perm_new P c seed e = Ok (s, e0) /\ run_baseline order M P c s (Some k) h e0 = Ok (v, s', h', e').

(** The settings c with another solver and another limit on the leaves. *)
Record searching (c : pcfg) (sv : solver) (leaves : option nat) (c' : pcfg) : Prop := {
  sg_solver : pc_solver c' = sv; sg_leaves : pc_leaves c' = leaves;
  sg_rest : pc_data c' = pc_data c /\ pc_labels c' = pc_labels c /\ pc_depth c' = pc_depth c /\ pc_forests c' = pc_forests c /\ pc_trees c' = pc_trees c /\ pc_class c' = pc_class c /\
    pc_budget c' = pc_budget c /\ pc_fsub c' = pc_fsub c /\ pc_eps c' = pc_eps c /\ pc_score c' = pc_score c }.

(** What is asked of the square root. *)
Definition root (M : math) : Prop := forall x, (0 <= x)%Qc -> (0 <= m_sqrt M x)%Qc /\ ((0 < x)%Qc -> (0 < m_sqrt M x)%Qc).

(** The standard error of the mean. *)
Definition std_error (M : math) (l : list Qc) : Qc := (m_sqrt M (variance l) / m_sqrt M (rat (length l)))%Qc.

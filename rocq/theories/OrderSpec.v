(** Vocabulary for the order of the columns of the training table. *)
From Coq Require Import List Arith Bool ZArith QArith Qcanon Lia.
From Verif Require Import Base Num Rng Histogram Utils Criteria Solvers Tree Spec SolverSpec TreeSpec ColSpec GrowSpec.
Import ListNotations.
Local Open Scope nat_scope.

(** The shape with its columns renumbered. *)
Fixpoint rename (phi : nat -> nat) (sh : shape) : shape :=
  match sh with Leaf rows => Leaf rows | Fork rows s v l r => Fork rows (phi s) v (rename phi l) (rename phi r) end.
(** The columns the shape splits on. *)
Fixpoint columns_of (sh : shape) : list nat := match sh with Leaf _ => [] | Fork _ s _ l r => s :: columns_of l ++ columns_of r end.
(** Another cut of the rows I, on another column of the list, that is as good as the cut of column s at v. *)
Definition ties_with (M : math) (c : tcfg) (a : targs) (keep : list nat) (I : list nat) (s : nat) (v : Qc) (s' : nat) : Prop :=
  In s' keep /\ s' <> s /\ exists E v', thresholds c a I s' E /\ In v' E /\ split_change M c a I s' v' = split_change M c a I s v.
(** Every split of the shape is on a column of the list that comes before all columns of the list it ties with. *)
Inductive order_kept (M : math) (c : tcfg) (a : targs) (keep : list nat) : shape -> Prop :=
| ok_leaf I : order_kept M c a keep (Leaf I)
| ok_fork I s v l r : In s keep -> (forall s', ties_with M c a keep I s v s' -> place keep s < place keep s') ->
    order_kept M c a keep l -> order_kept M c a keep r -> order_kept M c a keep (Fork I s v l r).
(** No split of the shape ties with a cut of another column. *)
Inductive untied (M : math) (c : tcfg) (a : targs) (cols : list nat) : shape -> Prop :=
| ut_leaf I : untied M c a cols (Leaf I)
| ut_fork I s v l r : (forall s', ~ ties_with M c a cols I s v s') -> untied M c a cols l -> untied M c a cols r -> untied M c a cols (Fork I s v l r).

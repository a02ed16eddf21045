(** A forest between reset and the next fit, and after it. *)
From Coq Require Import List Arith Bool ZArith QArith Qcanon Lia.
From Verif Require Import Base Num Rng Histogram Utils Criteria Solvers Tree Forest Samples Spec SolverSpec TreeSpec ForestSpec TreeWitness ForestWitness ForestReset ResetWitness.
Import ListNotations.
Local Open Scope nat_scope.

(** ** C152: what reset does *)
(** Fitting on given data, with or without a reset before it: the same trees, out-of-bag rows,
    budget, generator state, labels written and errors raised; only the query count differs. *)
Theorem C152_only_the_count : forall M P c f b data r h e,
  forest_fit M P c f (Some data, Some r) h e = more_fit (f_queries f) (forest_fit M P c (forest_reset c f b) (Some data, Some r) h e).
Proof. exact fit_without_reset. Qed.
Print Assumptions C152_only_the_count.
(** Until then the forest has no trees and no data. *)
Theorem C152_between : forall c f b, (forall x, forest_predict c (forest_reset c f b) x =
    (if fc_class c then match f_classes f with [] => Err IndexError | (k, _) :: _ => Ok (FNanClass k, forest_reset c f b) end
     else if fc_boosting c then Err UnboundLocalError else Ok (FNanReg, forest_reset c f b))) /\
  (forall h d, get_oob_score c (forest_reset c f b) h d = Err TypeError) /\
  calculate_mdi (forest_reset c f b) = match f_mdg f with Some arr => Ok (arr, forest_reset c f b) | None => Err TypeError end /\
  (forall M P h e, forest_fit M P c (forest_reset c f b) (None, None) h e = Err TypeError).
Proof. exact between. Qed.
Print Assumptions C152_between.
(** A reset does not rewind the generator: fitting again on the same data gives other answers. *)
Theorem C152_starts_over_refuted : exists P M c X h e f0 e0 f1 h1 e1 f2 h2 e2 x v v' f1' f2',
  forest_new P c (Some X) (Some 0) None None h e = Ok (f0, e0) /\ forest_fit M P c f0 (Some X, Some 0) h e0 = Ok (f1, h1, e1) /\
  forest_fit M P c (forest_reset c f1 None) (Some X, Some 0) h1 e1 = Ok (f2, h2, e2) /\ h1 = h /\
  forest_predict c f1 x = Ok (FReg v, f1') /\ forest_predict c f2 x = Ok (FReg v', f2') /\ v <> v'.
Proof. exact not_started_over. Qed.
Print Assumptions C152_starts_over_refuted.
Example C152_ex : exists f h e f1 h1 e1 f2 h2 e2, frun P1 fc_re X6 (heap_of T6) None None = Ok (f, h, e) /\
  forest_fit M0 P1 fc_re f (Some X6, Some 0) h e = Ok (f1, h1, e1) /\ forest_fit M0 P1 fc_re (forest_reset fc_re f (Some 7%Z)) (Some X6, Some 0) h e = Ok (f2, h2, e2) /\
  0 < f_queries f /\ 0 < f_queries f2 /\ length (f_trees f) = 3 /\ length (f_trees f2) = 3 /\ f_trees f1 = f_trees f2 /\ f_queries f1 = f_queries f + f_queries f2.
Proof. exact refit_example. Qed.

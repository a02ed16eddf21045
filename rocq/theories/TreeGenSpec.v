(** A tree constructed from [a] and fitted with the given split search and arithmetic. *)
From Coq Require Import List Arith Bool ZArith QArith Qcanon Lia.
From Verif Require Import Base Num Rng Histogram Utils Criteria Solvers Tree TreeGen Spec SolverSpec TreeSpec.
Import ListNotations.
Local Open Scope nat_scope.

Definition gen_built (P : prng) (O : ops) (c : tcfg) (a : targs) (e : env) (t : tree) : Prop :=
  exists t0 e0 e1, tree_new P c a e = Ok (t0, e0) /\ gen_tree_fit O c t0 (None, None) e0 = Ok (t, e1).

(** The split search finished: it was not cut short by the bound on its own loop. *)
Definition search_ends (O : ops) : Prop := forall nd b e, o_solve O nd b e <> Err OutOfFuel.

(** What fitting needs of the search: at a node that holds some of the training rows with at
    least two different labels it answers, and a split it finds leaves rows on both sides. *)
Definition posed_at (a : targs) (nd : node) : Prop :=
  nd_data nd = Some (map (fun i => map (cell (ta_data a) i) (nd_feats nd)) (nd_idcs nd)) /\
  nd_labels nd = Some (labels_at (ta_labels a) (nd_idcs nd)) /\
  incl (nd_idcs nd) (train_rows a) /\ incl (nd_feats nd) (train_feats a) /\ varied (labels_at (ta_labels a) (nd_idcs nd)).
Definition search_answers (O : ops) (a : targs) : Prop :=
  forall nd b e, posed_at a nd -> dd_fine (nd_dd nd) -> exists r, o_solve O nd b e = Ok r.
Definition search_separates (O : ops) (a : targs) : Prop :=
  forall nd b e f v r q bins e', posed_at a nd -> dd_fine (nd_dd nd) -> o_solve O nd b e = Ok (Found f v r q, bins, e') ->
    exists s, nth_error (nd_feats nd) f = Some s /\
      (exists i, In i (nd_idcs nd) /\ (cell (ta_data a) i s <= v)%Qc) /\ (exists i, In i (nd_idcs nd) /\ (v < cell (ta_data a) i s)%Qc).
(** Reductions below the required decrease are negative, as the arithmetic compares them. *)
Definition decrease_negative (O : ops) (c : tcfg) : Prop :=
  forall x, o_lt O x (Fin (tc_min_imp c)) = true -> o_lt O x (Fin 0) = true.

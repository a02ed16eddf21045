(** Specification vocabulary for training error: how well a fitted tree or forest reproduces the
    labels it was trained on. *)
From Coq Require Import List Arith Bool ZArith QArith Qcanon Lia.
From Verif Require Import Base Num Rng Histogram Utils Criteria Solvers Tree Spec SolverSpec TreeSpec.
Import ListNotations.
Local Open Scope nat_scope.

(** The rows of the training table a tree sees, and their labels. *)
Definition train_points (a : targs) : list (list Qc) := map (fun i => nth i (ta_data a) []) (train_rows a).
Definition train_labels (a : targs) : list Qc := labels_at (ta_labels a) (train_rows a).

(** The number or the label in an answer. *)
Definition number_of (p : pred) : Qc := match p with PReg v => v | PClass _ _ => 0%Qc end.
Definition label_of (p : pred) : Qc := match p with PClass l _ => l | PReg _ => 0%Qc end.

(** Sum of squared differences; number of equal positions. *)
Definition sq_error (ys ps : list Qc) : Qc := total (map (fun q => (fst q - snd q) * (fst q - snd q))%Qc (combine ys ps)).
Definition hits (ys ls : list Qc) : nat := length (filter (fun q => if Qc_eq_dec (fst q) (snd q) then true else false) (combine ys ls)).

(** A function of the row number that is constant on each leaf: what any other choice of answers
    for the same leaves would predict. *)
Definition leafwise (t : tree) (g : nat -> Qc) : Prop :=
  forall leaf i j, In leaf (t_leaves t) -> In i (node_rows t leaf) -> In j (node_rows t leaf) -> g i = g j.

(** The nodes that were split, and the impurity change recorded for a node. *)
Definition is_split (nd : node) : bool := match nd_left nd with Some _ => true | None => false end.
Definition recorded (nd : node) : Qc := match nd_red nd with Some (Fin q) => q | _ => 0%Qc end.
Definition split_changes (t : tree) : Qc := total (map recorded (filter is_split (t_nodes t))).
(** The mean impurity of the leaves, weighted by their numbers of rows. *)
Definition leaf_impurity (M : math) (c : tcfg) (a : targs) (t : tree) : Qc :=
  total (map (fun leaf => rat (length (node_rows t leaf)) / rat (length (train_rows a)) * tree_impurity M c (labels_at (ta_labels a) (node_rows t leaf)))%Qc (t_leaves t)).

(** The rows of I whose feature s has the value x. *)
Definition rows_with (data : list (list Qc)) (I : list nat) (s : nat) (x : Qc) : list nat :=
  filter (fun i => if Qc_eq_dec (cell data i s) x then true else false) I.
(** Feature s says nothing about the labels of the rows I: among the rows with any one of its values the
    classes have the frequencies (the targets have the mean) they have in I. *)
Definition uninformative (c : tcfg) (a : targs) (I : list nat) (s : nat) : Prop :=
  forall i, In i I -> let G := labels_at (ta_labels a) (rows_with (ta_data a) I s (cell (ta_data a) i s)) in
    if tc_class c then forall k, fraction k G = fraction k (labels_at (ta_labels a) I)
    else mean G = mean (labels_at (ta_labels a) I).
(** Column s alone determines the label of every training row. *)
Definition determines (a : targs) (s : nat) : Prop :=
  forall i j, In i (train_rows a) -> In j (train_rows a) -> cell (ta_data a) i s = cell (ta_data a) j s -> nth i (ta_labels a) 0%Qc = nth j (ta_labels a) 0%Qc.
(** Nothing but the data and the minimal size of a node limits the growth: no leaf limit, no budget, no
    depth limit, and every improvement counts. *)
Record unlimited (c : tcfg) (a : targs) : Prop := {
  ul_leaves : tc_max_leaves c = None;
  ul_budget : ta_budget a = None;
  ul_depth : tc_max_depth c = DInf;
  ul_imp : (0 <= tc_min_imp c)%Qc
}.

(** Sum of squares. *)
Definition sum_sq (l : list Qc) : Qc := total (map (fun y => y * y)%Qc l).

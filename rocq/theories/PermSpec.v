(** Specification vocabulary for feature importance stability. *)
From Coq Require Import List Arith Bool ZArith QArith Qcanon Lia Permutation Sorted.
From Verif Require Import Base Num Rng Histogram Utils Criteria Solvers Tree Forest Permutation Spec TreeSpec ForestSpec.
Import ListNotations.
Local Open Scope nat_scope.

(** What any sorting order of indices must satisfy, however it breaks ties. *)
Definition sorts (order : list Qc -> list nat) : Prop :=
  forall l, Permutation (order l) (seq 0 (length l)) /\ StronglySorted Qcle (map (fun i => nth i l 0%Qc) (order l)).

(** The features a forest selects: those among the k most important (ties broken by the
    given order) whose importance is not negative. *)
Definition selects (order : list Qc -> list nat) (k : nat) (row : list Qc) (j : nat) : Prop :=
  In j (firstn k (order (map Qcopp row))) /\ (0 <= nth j row 0)%Qc.

(** A ranking without ties: each of 1..n once. *)
Definition ranking (n : nat) (v : list nat) : Prop := Permutation v (seq 1 n).

(** Sum of squared rank differences, leaving out the first position. *)
Definition rank_distance (v1 v2 : list nat) : Qc :=
  total (map (fun ab => (rat (fst ab) - rat (snd ab)) * (rat (fst ab) - rat (snd ab)))%Qc (tl (combine v1 v2))).

(** A forest trained by train_forest on the object's data, then only asked for importances. *)
Definition trained (M : math) (P : prng) (c : pcfg) (f : forest) : Prop :=
  exists seed h e f0 e0 f1 h1 e1, forest_new P (forest_cfg c seed) (Some (pc_data c)) (Some (pc_labels c)) None (pc_budget c) h e = Ok (f0, e0) /\
    forest_fit M P (forest_cfg c seed) f0 (None, None) h e0 = Ok (f1, h1, e1) /\ used (forest_cfg c seed) h1 f1 f.

(** The states of the object when it is only used to compute arrays. *)
Inductive perm_reach (M : math) (P : prng) (c : pcfg) : pstate -> Prop :=
| reach_new seed e s e' : perm_new P c seed e = Ok (s, e') -> perm_reach M P c s
| reach_array s h e rows s' h' e' : perm_reach M P c s -> get_importance_array M P c s h e = Ok (rows, s', h', e') -> perm_reach M P c s'.

(** The number of forests that select feature j. *)
Definition selecting (order : list Qc -> list nat) (k : nat) (imp : list (list Qc)) (j : nat) : nat :=
  length (filter (fun row => existsb (Nat.eqb j) (firstn k (order (map Qcopp row))) && qle 0%Qc (nth j row 0%Qc)) imp).

(** r ranks the entries of x densely: the order is kept and the ranks are 1, 2, ... *)
Record dense_ranking (x : list Qc) (r : list nat) : Prop := {
  dr_length : length r = length x;
  dr_order : forall i j, i < length x -> j < length x -> (nth i r 0 < nth j r 0 <-> (nth i x 0 < nth j x 0)%Qc);
  dr_gaps : exists m, forall k, In k r <-> 1 <= k <= m
}.

(** x and y are ordered in the same way. *)
Definition same_order (x y : list Qc) : Prop :=
  length x = length y /\ forall i j, i < length x -> j < length x -> ((nth i x 0 < nth j x 0)%Qc <-> (nth i y 0 < nth j y 0)%Qc).

(** The fraction of forests that select j, and the mean number of selected features of W. *)
Definition share (order : list Qc -> list nat) (k : nat) (imp : list (list Qc)) (j : nat) : Qc :=
  (rat (selecting order k imp j) / rat (length imp))%Qc.
Definition mean_selected (order : list Qc -> list nat) (k : nat) (imp : list (list Qc)) (W : nat) : Qc :=
  total (map (share order k imp) (seq 0 W)).
(** The sum over all features of p(1-p), for p the fraction of forests that select it. *)
Definition disagreement (order : list Qc -> list nat) (k : nat) (imp : list (list Qc)) (W : nat) : Qc :=
  total (map (fun j => share order k imp j * (1 - share order k imp j))%Qc (seq 0 W)).

(** The number of elements of a finite set of numbers. *)
Definition card (A : nat -> Prop) (n : nat) : Prop := exists l, NoDup l /\ (forall x, In x l <-> A x) /\ length l = n.
(** The numbers of ranks that occur in both, and in at least one, of the first k positions. *)
Definition in_both (v1 v2 : list nat) (k x : nat) : Prop := In x (firstn k v1) /\ In x (firstn k v2).
Definition in_either (v1 v2 : list nat) (k x : nat) : Prop := In x (firstn k v1) \/ In x (firstn k v2).

(** The settings of the forests behind an importance array: those of the object, bootstrap
    samples and out-of-bag rows, and the defaults of the forest classes. *)
Record importance_settings (c : pcfg) (fc : fcfg) : Prop := {
  is_class : fc_class fc = pc_class c; is_n : fc_n fc = pc_trees c; is_depth : fc_max_depth fc = pc_depth c; is_solver : fc_solver fc = pc_solver c;
  is_fsub : fc_fsub fc = pc_fsub c; is_leaves : fc_max_leaves fc = pc_leaves c; is_eps : fc_eps fc = pc_eps c;
  is_boot : fc_bootstrap fc = true; is_oob : fc_oob fc = true;
  is_defaults : fc_min_split fc = 2 /\ fc_min_imp fc = 0%Qc /\ fc_bin fc = LINEAR /\ fc_nb fc = 11 /\ fc_splitter fc = BEST /\ fc_repl fc = false /\
    fc_boosting fc = false /\ fc_make_discrete fc = false /\ fc_precomp_minmax fc = false /\ fc_log_split fc = false /\ fc_dyn_eps fc = false /\
    fc_batch fc = 1000 /\ fc_alpha_N fc = 1%Qc /\ fc_alpha_F fc = 1%Qc
}.

(** The first n draws of a generator. *)
Fixpoint draws (n : nat) (g : tape) : list nat := match n with 0 => [] | S n => fst (draw g) :: draws n (snd (draw g)) end.

(** The number of positions at which a classifier predicts the label; for a regressor the
    code counts the labels equal to its first prediction. *)
Definition hits_spec (cl : bool) (ps : list fpred) (labels : list Qc) (n : nat) : Prop :=
  if cl then exists ls, Forall2 (fun p l => p = FNanClass l \/ exists q, p = FClass l q) ps ls /\ length ls = length labels /\
                        card (fun i => i < length labels /\ nth i ls 0%Qc = nth i labels 0%Qc) n
  else exists p, nth_error ps 0 = Some p /\ ((p = FNanReg /\ n = 0) \/ exists v, p = FReg v /\ card (fun i => i < length labels /\ nth i labels 0%Qc = v) n).

(** d is the table with the entries of column j rearranged. *)
Definition column_shuffled (W : nat) (data d : list (list Qc)) (j : nat) : Prop :=
  rectangular W d /\ length d = length data /\ Permutation (feature_values j d) (feature_values j data) /\ forall g, g <> j -> feature_values g d = feature_values g data.

Definition distance (a b : xn) : xn := match xsub a b with Fin x => Fin (if qle 0 x then x else - x)%Qc | PInf | NInf => PInf | NaN => NaN end.

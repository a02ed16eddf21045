(** Specification vocabulary for fitted trees, in terms of the training data. *)
From Coq Require Import List Arith Bool ZArith QArith Qcanon Lia.
From Verif Require Import Base Num Rng Histogram Utils Criteria Solvers Tree Spec SolverSpec.
Import ListNotations.
Local Open Scope nat_scope.

(** A tree constructed from [a] and fitted. *)
Definition built (P : prng) (M : math) (c : tcfg) (a : targs) (e : env) (t : tree) : Prop :=
  exists t0 e0 e1, tree_new P c a e = Ok (t0, e0) /\ tree_fit M c t0 (None, None) e0 = Ok (t, e1).

(** The rows the tree is trained on: those passed as idcs, or all. *)
Definition train_rows (a : targs) : list nat :=
  match ta_idcs a with Some l => l | None => seq 0 (length (ta_labels a)) end.
(** The features the tree may use. *)
Definition train_feats (a : targs) : list nat :=
  match ta_feats a with Some l => l | None => seq 0 (length (nth 0 (ta_data a) [])) end.

Definition node_at (t : tree) (id : nat) (nd : node) : Prop := nth_error (t_nodes t) id = Some nd.
Definition node_rows (t : tree) (id : nat) : list nat :=
  match nth_error (t_nodes t) id with Some nd => nd_idcs nd | None => [] end.
Definition node_feats (t : tree) (id : nat) : list nat :=
  match nth_error (t_nodes t) id with Some nd => nd_feats nd | None => [] end.

(** Value of feature f in row i; labels of rows. *)
Definition cell (data : list (list Qc)) (i f : nat) : Qc := nth f (nth i data []) 0%Qc.
Definition labels_at (labels : list Qc) (I : list nat) : list Qc := map (fun i => nth i labels 0%Qc) I.

(** Depth d respects / is strictly below max_depth. *)
Definition within_depth (c : tcfg) (d : nat) : Prop :=
  match tc_max_depth c with DFin z => (Z.of_nat d <= Z.max 0 z)%Z | _ => True end.
Definition below_depth (c : tcfg) (d : nat) : Prop :=
  match tc_max_depth c with DFin z => (Z.of_nat d < z)%Z | DInf => True | DNone => False end.

(** At least two different values. *)
Definition varied (l : list Qc) : Prop := exists x y, In x l /\ In y l /\ x <> y.

(** From node [id] the point x is routed to the node [leaf]: left if its value of the split
    feature is at most the split value, right otherwise, until a node without children. *)
Inductive lands (t : tree) (x : list Qc) : nat -> nat -> Prop :=
| lands_here id nd : node_at t id nd -> nd_left nd = None -> nd_right nd = None -> lands t x id id
| lands_left id nd l s v xv leaf : node_at t id nd -> nd_left nd = Some l -> nd_sf nd = Some s -> nd_sv nd = Some v ->
    nth_error x s = Some xv -> (xv <= v)%Qc -> lands t x l leaf -> lands t x id leaf
| lands_right id nd l r s v xv leaf : node_at t id nd -> nd_left nd = Some l -> nd_right nd = Some r -> nd_sf nd = Some s -> nd_sv nd = Some v ->
    nth_error x s = Some xv -> (v < xv)%Qc -> lands t x r leaf -> lands t x id leaf.

(** The node is reached from the root in exactly d steps. *)
Inductive at_level (t : tree) : nat -> nat -> Prop :=
| level_root nd : node_at t 0 nd -> at_level t 0 0
| level_child p pn id d : at_level t p d -> node_at t p pn -> (nd_left pn = Some id \/ nd_right pn = Some id) -> at_level t id (S d).

(** A class dictionary: distinct names, and indices that are 0..K-1 in some order. *)
Definition good_classes (d : cdict) : Prop :=
  NoDup (map fst d) /\ NoDup (map snd d) /\ forall k i, In (k, i) d -> i < length d.

(** The answer of a call that also returns an updated tree. *)
Definition answer {A B} (r : res (A * B)) : res A := match r with Ok (a, _) => Ok a | Err e => Err e end.

(** The states the fitting loop passes through, starting from (t, e): it performed some
    splits and is about to test the leaf limit again. *)
Inductive loop_state (M : math) (c : tcfg) : tree -> env -> tree -> env -> Prop :=
| ls_start t e : loop_state M c t e t e
| ls_step t e t1 e1 t2 e2 : loop_state M c t e t1 e1 -> tc_max_leaves c <> Some (length (t_leaves t1)) ->
    fit_step M c t1 e1 = Ok (t2, e2, true) -> loop_state M c t e t2 e2.

(** A dictionary of discrete features is absent or a defaultdict. *)
Definition dd_fine (d : option ddict) : Prop := match d with None => True | Some d => dd_default d = true end.

(** A well-formed training problem: a rectangular table with one label per row; rows and
    features that exist; between 1 and all features per node; a numeric max_depth; the
    best-first splitter; room for one leaf; a criterion that matches the task; labels that are
    known classes; a range for every feature if ranges are supplied. *)
Record trainable (c : tcfg) (a : targs) (W : nat) : Prop := {
  tr_len : length (ta_labels a) = length (ta_data a);
  tr_rect : rectangular W (ta_data a);
  tr_rows : train_rows a <> [];
  tr_rows_in : forall i, In i (train_rows a) -> i < length (ta_labels a);
  tr_feats : train_feats a <> [];
  tr_feats_in : forall f, In f (train_feats a) -> f < W;
  tr_sub : match tc_fsub c with
           | FSNone | FSSqrt => True
           | FSInt k => (1 <= k <= Z.of_nat (length (train_feats a)))%Z
           | FSFloat r => (0 < r)%Qc /\ (r <= 1)%Qc
           | FSOther => False
           end;
  tr_depth : tc_max_depth c <> DNone;
  tr_splitter : tc_splitter c = BEST;
  tr_leaves : tc_max_leaves c <> Some 0;
  tr_crit : if tc_class c
            then tc_crit c = GINI \/ tc_crit c = MAuto \/
                 (tc_crit c = ENTROPY /\ length (nodup Qc_eq_dec (labels_at (ta_labels a) (train_rows a))) <= 2)
            else tc_crit c = MSE \/ tc_crit c = MAuto;
  tr_classes : tc_class c = true ->
    (forall i, In i (train_rows a) -> In (nth i (ta_labels a) 0%Qc) (map fst (tc_classes c))) /\
    (forall k i, In (k, i) (tc_classes c) -> i < length (tc_classes c));
  tr_minmax : match tc_minmax c with
              | None => True
              | Some (mn, mx) => W <= length mn /\ W <= length mx /\
                  forall f x y, nth_error mn f = Some x -> nth_error mx f = Some y -> (x <= y)%Qc
              end;
  tr_dd : dd_fine (ta_dd a)
}.

(** Rows with the same features have the same label. *)
Definition consistent (a : targs) : Prop :=
  forall i j, In i (train_rows a) -> In j (train_rows a) ->
    (forall f, In f (train_feats a) -> cell (ta_data a) i f = cell (ta_data a) j f) ->
    nth i (ta_labels a) 0%Qc = nth j (ta_labels a) 0%Qc.

(** At least m thresholds are proposed at every node that may be split: LINEAR bins with
    ranges fixed in advance, none of them a single point; or LINEAR bins over the range of
    the node, all features considered and consistent data; or IDENTITY or RANDOM bins. *)
Definition enough_bins (c : tcfg) (a : targs) (m : nat) : Prop :=
  (tc_bin c = LINEAR \/ tc_bin c = RANDOM -> if tc_log_split c then m <= 2 else m <= tc_nb c) /\
  match tc_bin c with
  | LINEAR =>
      match tc_minmax c with
      | Some (mn, mx) => forall f x y, In f (train_feats a) -> nth_error mn f = Some x -> nth_error mx f = Some y -> x <> y
      | None => tc_fsub c = FSNone /\ consistent a
      end
  | IDENTITY | RANDOM => True
  | _ => False
  end.

(** The configured impurity, and the change of impurity (weighted by the sizes of the sides)
    when the rows I are split at feature s, value v. *)
Definition tree_impurity (M : math) (c : tcfg) : list Qc -> Qc :=
  if tc_class c then match tc_crit c with ENTROPY => entropy (m_log M) | _ => gini end
  else match tc_crit c with GINI => lump | _ => variance end.
Definition split_change (M : math) (c : tcfg) (a : targs) (I : list nat) (s : nat) (v : Qc) : Qc :=
  reduction (tree_impurity M c) (picked (ta_data a) (ta_labels a) I) s v.
(** The thresholds of feature s that are considered at a node with rows I. *)
Definition thresholds (c : tcfg) (a : targs) (I : list nat) (s : nat) (E : list Qc) : Prop :=
  candidates (tc_bin c) (match tc_bin c with IDENTITY => length I | _ => if tc_log_split c then Nat.log2 (length I) + 1 else tc_nb c end)
    (tc_minmax c) (map (fun i => nth i (ta_data a) []) I) s E.
Definition bins_ok (c : tcfg) : Prop :=
  match tc_bin c with
  | LINEAR => tc_log_split c = true \/ 2 <= tc_nb c
  | RANDOM => tc_log_split c = true \/ 1 <= tc_nb c
  | IDENTITY => True
  | _ => False
  end.

(** The features a node may consider, given feature_subsampling: distinct training features,
    as many as prescribed. *)
Definition subsampled (c : tcfg) (a : targs) (fs : list nat) : Prop :=
  NoDup fs /\ incl fs (train_feats a) /\
  match tc_fsub c with
  | FSNone => fs = train_feats a
  | FSSqrt => length (train_feats a) <= length fs * length fs /\ forall j, length (train_feats a) <= j * j -> length fs <= j
  | FSInt k => Z.of_nat (length fs) = k
  | FSFloat r => rounds_up (r * rat (length (train_feats a)))%Qc (length fs)
  | FSOther => False
  end.

(** The features whose values have to be read to find the best split of the rows I: those with
    a threshold (with LINEAR bins a feature whose range is one point has none). *)
Definition several (l : list Qc) : bool := match l with [] => false | x :: r => negb (forallb (qeq x) r) end.
Definition scanned (c : tcfg) (a : targs) (I : list nat) (s : nat) : bool :=
  match tc_bin c with
  | LINEAR => match tc_minmax c with
              | None => several (feature_values (map (fun i => nth i (ta_data a) []) I) s)
              | Some (mn, mx) => negb (qeq (nth s mn 0%Qc) (nth s mx 0%Qc))
              end
  | _ => true
  end.

(** The same configuration with another max_depth. *)
Definition with_max_depth (c : tcfg) (d : depthlim) : tcfg :=
  {| tc_class := tc_class c; tc_max_depth := d; tc_classes := tc_classes c; tc_fsub := tc_fsub c; tc_min_split := tc_min_split c;
     tc_min_imp := tc_min_imp c; tc_max_leaves := tc_max_leaves c; tc_bin := tc_bin c; tc_nb := tc_nb c; tc_crit := tc_crit c;
     tc_splitter := tc_splitter c; tc_solver := tc_solver c; tc_repl := tc_repl c; tc_make_discrete := tc_make_discrete c;
     tc_minmax := tc_minmax c; tc_log_split := tc_log_split c; tc_dyn_eps := tc_dyn_eps c; tc_eps := tc_eps c; tc_batch := tc_batch c |}.

(** np.empty will return the same contents to both runs from now on. *)
Definition coming (e e' : env) : Prop := forall k, e_mem e (e_calls e + k) = e_mem e' (e_calls e' + k).
(** Settings under which every entry of an np.empty array is overwritten before it is read:
    exact search over at least two thresholds per feature, bandit search over at least six. *)
Definition memory_free (c : tcfg) (a : targs) : Prop :=
  tc_solver c = EXACT /\ enough_bins c a 2 \/ tc_solver c = MAB /\ 1 <= tc_batch c /\ tc_bin c <> IDENTITY /\ enough_bins c a 6.

(** The cheapest of the three bin types: D listed values (None when the feature is not
    discrete), N data values or B evenly spaced ones; of two equally cheap types the one
    mentioned first. *)
Definition no_dearer (a b : option nat) : Prop := match a, b with _, None => True | Some x, Some y => x <= y | None, Some _ => False end.
Definition cheapest (D : option nat) (N B : nat) (bt : bintype) : Prop :=
  match bt with
  | DISCRETE => no_dearer D (Some N) /\ no_dearer D (Some B)
  | IDENTITY => ~ no_dearer D (Some N) /\ N <= B
  | LINEAR => ~ no_dearer D (Some B) /\ B < N
  | _ => False
  end.

(** The number of values listed for feature j, if any are listed. *)
Definition listed (dd : option ddict) (j : nat) : option nat :=
  match dd with
  | None => None
  | Some d => match find (fun kv => fst kv =? j) (dd_items d) with
              | Some (_, v) => match length (dval_list v) with 0 => None | n => Some n end
              | None => None
              end
  end.
(** The number of bins the features before j leave behind under the automatic bin type: it
    starts with B, a feature with listed values replaces it by their number, and a feature
    binned by its own values by the number of rows. *)
Inductive left_behind (dd : option ddict) (N B : nat) : nat -> nat -> Prop :=
| lb_start : left_behind dd N B 0 B
| lb_listed : forall j n d, left_behind dd N B j n -> listed dd j = Some d -> cheapest (Some d) N B DISCRETE -> left_behind dd N B (S j) d
| lb_values : forall j n, left_behind dd N B j n -> cheapest (listed dd j) N B IDENTITY -> left_behind dd N B (S j) N
| lb_spaced : forall j n, left_behind dd N B j n -> cheapest (listed dd j) N B LINEAR -> left_behind dd N B (S j) n.
(** The histogram h of feature j, with column fd, when n is left behind. *)
Definition auto_hist (dd : option ddict) (N B : nat) (j n : nat) (fd : list Qc) (mm : option (list Qc * list Qc)) (h : hist) : Prop :=
  h_feat h = j /\
  (forall d, listed dd j = Some d -> cheapest (Some d) N B DISCRETE -> h_type h = DISCRETE /\ h_nb h = d) /\
  (cheapest (listed dd j) N B IDENTITY -> h_type h = IDENTITY /\ exists es, h_edges h = Some es /\ h_nb h = length es /\ NoDup es /\ forall x, In x es <-> In x fd) /\
  (cheapest (listed dd j) N B LINEAR -> h_type h = LINEAR /\
     exists a b, match mm with None => least fd a /\ greatest fd b | Some (mn, mx) => nth_error mn j = Some a /\ nth_error mx j = Some b end /\
       (a = b -> h_nb h = 0) /\ (a <> b -> h_nb h = n)).


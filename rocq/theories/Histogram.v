(** Model of data_structures/histogram.py and utils/utils_histogram.py. *)
From Coq Require Import List Arith Bool ZArith QArith Qcanon Lia.
From Verif Require Import Base Num Rng.
Import ListNotations.
Local Open Scope nat_scope.

(** Bin types (utils/constants.py:35-38); [BAuto] is the empty string (choose per feature),
    [BOther] any other string. *)
Inductive bintype := LINEAR | DISCRETE | IDENTITY | RANDOM | BAuto | BOther.

Definition bintype_eqb (a b : bintype) : bool :=
  match a, b with
  | LINEAR, LINEAR | DISCRETE, DISCRETE | IDENTITY, IDENTITY | RANDOM, RANDOM
  | BAuto, BAuto | BOther, BOther => true
  | _, _ => false
  end.

(** Values of a discrete feature: a Python set (what data_to_discrete builds) or an
    indexable list (what a caller may supply). *)
Inductive dval := DSet (l : list Qc) | DList (l : list Qc).
Definition dval_list (d : dval) : list Qc := match d with DSet l => l | DList l => l end.

(** (number of samples, mean, variance) of a regression pile, histogram.py:61-65. *)
Record pile := { p_n : nat; p_mean : Qc; p_var : Qc }.
Definition pile0 : pile := {| p_n := 0; p_mean := 0; p_var := 0 |}.

(** class Histogram, histogram.py:10-65.  [h_edges = None]: the attribute bin_edges (and
    left/right/piles) was never set because __init__ returned early.  [left]/[right] rows
    are bins, columns classes. The fields unique_fvals and f_data are only read during
    construction and are not kept. *)
Record hist := {
  h_class : bool;
  h_feat : nat;
  h_classes : list Qc;
  h_nb : nat;
  h_min : Qc;
  h_max : Qc;
  h_type : bintype;
  h_edges : option (list Qc);
  h_left : list (list nat);
  h_right : list (list nat);
  h_lpile : list pile;
  h_rpile : list pile;
  h_cpile : pile
}.

(** linear_bin, histogram.py:180-184: np.linspace(min, max, num); the i-th point in exact
    arithmetic (numpy rounds; with num = 1 the only point is min). *)
Definition linear_bin (mn mx : Qc) (nb : nat) : list Qc :=
  map (fun i => (mn + (mx - mn) * (Nq i / Nq (nb - 1)))%Qc) (seq 0 nb).

(** discrete_bin, histogram.py:186-199.  Subscripting a set raises TypeError; len(None)
    raises TypeError; dividing by zero bins raises ZeroDivisionError. *)
Definition discrete_bin (uf : option dval) (nb : nat) : res (list Qc) :=
  match uf with
  | None => Err TypeError
  | Some d =>
      if nb =? 0 then Err ZeroDivisionError else
      let width := length (dval_list d) / nb in
      match d with
      | DSet _ => Err TypeError
      | DList l => mapM (fun i => nth_res l (width * i)) (seq 0 nb)
      end
  end.

(** identity_bin, histogram.py:201-210: sorted distinct values; also resets num_bins. *)
Definition identity_bin (f_data : list Qc) : list Qc := unique f_data.

(** random_bin, histogram.py:212-221: sorted uniform draws from numpy's global generator. *)
Definition random_bin (mn mx : Qc) (nb : nat) (t : tape) : list Qc * tape :=
  let (l, t') := uniforms mn mx nb t in (qsort l, t').

(** The arrays allocated by __init__, histogram.py:56-65. *)
Definition alloc_hist (is_class : bool) (feat : nat) (classes : list Qc) (nb : nat)
  (mn mx : Qc) (ty : bintype) (edges : list Qc) : hist :=
  let zeros := repeat (repeat 0 (length classes)) nb in
  {| h_class := is_class; h_feat := feat; h_classes := classes; h_nb := nb;
     h_min := mn; h_max := mx; h_type := ty; h_edges := Some edges;
     h_left := if is_class then zeros else [];
     h_right := if is_class then zeros else [];
     h_lpile := if is_class then [] else repeat pile0 nb;
     h_rpile := if is_class then [] else repeat pile0 nb;
     h_cpile := pile0 |}.

(** Histogram.__init__, histogram.py:16-65. *)
Definition new_hist (is_class : bool) (feat : nat) (uf : option dval) (f_data : list Qc)
  (classes : list Qc) (nb : nat) (mn mx : Qc) (ty : bintype) (t : tape) : res (hist * tape) :=
  match ty with
  | LINEAR =>
      if qeq mn mx then
        Ok ({| h_class := is_class; h_feat := feat; h_classes := classes; h_nb := 0;
               h_min := mn; h_max := mx; h_type := ty; h_edges := None;
               h_left := []; h_right := []; h_lpile := []; h_rpile := [];
               h_cpile := pile0 |}, t)
      else Ok (alloc_hist is_class feat classes nb mn mx ty (linear_bin mn mx nb), t)
  | DISCRETE =>
      do e <- discrete_bin uf nb;
      Ok (alloc_hist is_class feat classes nb mn mx ty e, t)
  | IDENTITY =>
      let e := identity_bin f_data in
      Ok (alloc_hist is_class feat classes (length e) mn mx ty e, t)
  | RANDOM =>
      let (e, t') := random_bin mn mx nb t in
      Ok (alloc_hist is_class feat classes nb mn mx ty e, t')
  | BAuto | BOther => Err NotImplementedError
  end.

(** The LINEAR branch of get_bin, histogram.py:80-86, for one value.  With one bin the
    width is infinite and every quotient is 0. *)
Definition linear_index (mn mx : Qc) (nb : nat) (v : Qc) : nat :=
  if nb =? 1 then 0 else
  let width := ((mx - mn) / Zq (Z.of_nat nb - 1))%Qc in
  let z := qceil ((v - mn) / width)%Qc in
  if (z <? 0)%Z then 0
  else if (Z.of_nat nb - 1 <? z)%Z then nb
  else Z.to_nat z.

(** np.searchsorted(edges, v) (side left): the number of edges below v.  This is what
    numpy's binary search returns on increasing edges; on edges that are not increasing
    (only possible with a caller-supplied unsorted discrete list) numpy may differ. *)
Definition search_index (edges : list Qc) (v : Qc) : nat :=
  length (filter (fun e => qlt e v) edges).

(** get_bin, histogram.py:67-89, for one value (the code is elementwise). *)
Definition get_bin (ty : bintype) (mn mx : Qc) (nb : nat) (edges : list Qc) (v : Qc) : nat :=
  match ty with
  | LINEAR => linear_index mn mx nb v
  | _ => search_index edges v
  end.

(** welford_variance_calc, utils/utils_histogram.py:2-19. *)
Definition welford (n1 : nat) (mean1 var1 : Qc) (n2 : nat) (mean2 var2 : Qc) : Qc :=
  if qeq var1 0 then var2
  else if qeq var2 0 then var1
  else
    let n := Nq (n1 + n2) in
    let delta := (mean1 - mean2)%Qc in
    let m1 := (Nq n1 * var1)%Qc in
    let m2 := (Nq n2 * var2)%Qc in
    let m := (m1 + m2 + delta * delta * (Nq n1 * Nq n2) / n)%Qc in
    (m / n)%Qc.

(** update_bins, histogram.py:223-240. *)
Definition update_bins (prev : pile) (curr : list Qc) : pile :=
  match curr with
  | [] => prev
  | _ =>
      let n2 := length curr in
      let mean2 := qmean curr in
      let var2 := qvar curr in
      let n := p_n prev + n2 in
      {| p_n := n;
         p_mean := ((Nq (p_n prev) * p_mean prev + Nq n2 * mean2) / Nq n)%Qc;
         p_var := welford (p_n prev) (p_mean prev) (p_var prev) n2 mean2 var2 |}
  end.

(** [self.right[:i, y] += 1; self.left[i:, y] += 1], histogram.py:161-162. *)
Definition bump (y : nat) (row : list nat) : list nat :=
  mapi (fun k c => if k =? y then S c else c) row.
Definition insert_right (i y : nat) (m : list (list nat)) : list (list nat) :=
  mapi (fun b row => if b <? i then bump y row else row) m.
Definition insert_left (i y : nat) (m : list (list nat)) : list (list nat) :=
  mapi (fun b row => if i <=? b then bump y row else row) m.

Definition add_one (lr : list (list nat) * list (list nat)) (iy : nat * nat) :=
  (insert_left (fst iy) (snd iy) (fst lr), insert_right (fst iy) (snd iy) (snd lr)).

Definition set_counts (h : hist) (l r : list (list nat)) : hist :=
  {| h_class := h_class h; h_feat := h_feat h; h_classes := h_classes h; h_nb := h_nb h;
     h_min := h_min h; h_max := h_max h; h_type := h_type h; h_edges := h_edges h;
     h_left := l; h_right := r; h_lpile := h_lpile h; h_rpile := h_rpile h;
     h_cpile := h_cpile h |}.
Definition set_piles (h : hist) (l r : list pile) (c : pile) : hist :=
  {| h_class := h_class h; h_feat := h_feat h; h_classes := h_classes h; h_nb := h_nb h;
     h_min := h_min h; h_max := h_max h; h_type := h_type h; h_edges := h_edges h;
     h_left := h_left h; h_right := h_right h; h_lpile := l; h_rpile := r;
     h_cpile := c |}.

(** X[:, f]. *)
Definition col (data : list (list Qc)) (f : nat) : res (list Qc) :=
  mapM (fun r => nth_res r f) data.

(** [Y[mask]] for the samples whose bin index satisfies a test. *)
Definition select (test : nat -> bool) (idx : list nat) (Y : list Qc) : list Qc :=
  map snd (filter (fun p => test (fst p)) (combine idx Y)).

(** Histogram.add, histogram.py:110-178 (VECTORIZE = False, constants.py:10).
    np.vectorize on an empty array raises ValueError; classes.index raises ValueError on an
    unknown label.  In the regression branch a length mismatch between X and Y surfaces as
    an IndexError of the boolean mask. *)
Definition hist_add (h : hist) (X : list (list Qc)) (Y : list Qc) : res hist :=
  do fvals <- col X (h_feat h);
  do edges <- opt_res (h_edges h) AttributeError;
  if h_class h then
    do _ <- guard ((length edges =? length (h_left h)) && (length (h_left h) =? length (h_right h))
                   && (length (h_right h) =? h_nb h)) AssertionError;
    do _ <- guard (length X =? length Y) AssertionError;
    let idx := map (get_bin (h_type h) (h_min h) (h_max h) (h_nb h) edges) fvals in
    do _ <- guard (negb (length Y =? 0)) ValueError;
    do newY <- mapM (fun y => opt_res (qindex y (h_classes h)) ValueError) Y;
    let lr := fold_left add_one (combine idx newY) (h_left h, h_right h) in
    Ok (set_counts h (fst lr) (snd lr))
  else
    do _ <- guard ((length edges =? length (h_lpile h)) && (length (h_lpile h) =? length (h_rpile h))
                   && (length (h_rpile h) =? h_nb h)) AssertionError;
    let idx := map (get_bin (h_type h) (h_min h) (h_max h) (h_nb h) edges) fvals in
    do _ <- guard (length X =? length Y) IndexError;
    let lp := mapi (fun b p => update_bins p (select (fun i => i <=? b) idx Y)) (h_lpile h) in
    let rp := mapi (fun b p => update_bins p (select (fun i => b <? i) idx Y)) (h_rpile h) in
    Ok (set_piles h lp rp (update_bins (h_cpile h) Y)).

(** empty_samples(range(num_bins)), histogram.py:94-108 as called by empty_histograms
    (utils/utils.py:262-269): every bin and curr_pile are zeroed.  A histogram without
    bin_edges has no left/left_pile attribute: AttributeError. *)
Definition empty_samples (h : hist) : res hist :=
  match h_edges h with
  | None => Err AttributeError
  | Some _ =>
      if h_class h then
        let zeros := repeat (repeat 0 (length (h_classes h))) (h_nb h) in
        Ok (set_counts h zeros zeros)
      else Ok (set_piles h (repeat pile0 (h_nb h)) (repeat pile0 (h_nb h)) pile0)
  end.

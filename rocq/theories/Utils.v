(** Model of utils/utils.py. *)
From Coq Require Import List Arith Bool ZArith QArith Qcanon Lia.
From Verif Require Import Base Num Rng Histogram.
Import ListNotations.
Local Open Scope nat_scope.

(** A dict from class name to class index, in insertion order. *)
Definition cdict := list (Qc * nat).

(** count_occurrence, utils.py:40-48. *)
Definition count_occurrence (c : Qc) (labels : list Qc) : nat :=
  length (filter (fun y => qeq y c) labels).

(** class_to_idx, utils.py:51-59 (the callers pass distinct classes). *)
Definition class_to_idx (classes : list Qc) : cdict :=
  combine classes (seq 0 (length classes)).

Fixpoint cdict_get (d : cdict) (c : Qc) : option nat :=
  match d with
  | [] => None
  | (k, v) :: t => if qeq k c then Some v else cdict_get t c
  end.

(** counts_of_labels, utils.py:62-75: KeyError for a label outside the dict, IndexError for
    a class index beyond the number of classes. *)
Definition counts_of_labels (d : cdict) (labels : list Qc) : res (list nat) :=
  foldM (fun counts c =>
           do i <- opt_res (cdict_get d c) KeyError;
           do _ <- guard (i <? length counts) IndexError;
           Ok (set_nth i (count_occurrence c labels) counts))
        (repeat 0 (length d)) (unique labels).

(** A dict from feature index to discrete values; [dd_default] says whether it is a
    defaultdict(list) (missing keys read as []). *)
Record ddict := { dd_default : bool; dd_items : list (nat * dval) }.

Fixpoint assoc {A} (k : nat) (l : list (nat * A)) : option A :=
  match l with
  | [] => None
  | (j, a) :: t => if k =? j then Some a else assoc k t
  end.

Definition dd_get (d : ddict) (f : nat) : res dval :=
  match assoc f (dd_items d) with
  | Some v => Ok v
  | None => if dd_default d then Ok (DList []) else Err KeyError
  end.

(** The inner loop of data_to_discrete, utils.py:99-108: collect distinct values, giving up
    as soon as there are more than 10. *)
Fixpoint collect_distinct (acc : list Qc) (vals : list Qc) : option (list Qc) :=
  match vals with
  | [] => Some acc
  | v :: t =>
      let acc' := if qmem v acc then acc else acc ++ [v] in
      if 10 <? length acc' then None else collect_distinct acc' t
  end.

(** data_to_discrete, utils.py:78-111.  The argument n is not used by the code. *)
Definition data_to_discrete (data : list (list Qc)) (n : nat) : res ddict :=
  do r0 <- nth_res data 0;
  do items <- mapM (fun f =>
       do c <- col data f;
       Ok (match collect_distinct [] c with
           | Some s => [(f, DSet s)]
           | None => []
           end)) (seq 0 (length r0));
  Ok {| dd_default := true; dd_items := concat items |}.

(** choose_bin_type, utils.py:114-128; D = None stands for float("inf"). *)
Definition choose_bin_type (D : option nat) (N B : nat) : bintype :=
  let minNB := Nat.min N B in
  match D with
  | Some d =>
      let m := Nat.min d minNB in
      if m =? d then DISCRETE else if m =? N then IDENTITY else LINEAR
  | None => if minNB =? N then IDENTITY else LINEAR
  end.

Definition list_min (l : list Qc) : res Qc :=
  match l with [] => Err ValueError | a :: t => Ok (qmin_list a t) end.
Definition list_max (l : list Qc) : res Qc :=
  match l with [] => Err ValueError | a :: t => Ok (qmax_list a t) end.

(** make_histograms, utils.py:131-208.  The loop state is (num_bins, numpy's global tape,
    histograms, not_considered, considered); note that num_bins is reassigned inside the
    loop and so leaks to later features. *)
Record mhstate := {
  mh_nb : nat; mh_np : tape; mh_hists : list hist;
  mh_not : list (nat * nat); mh_cons : list (nat * nat)
}.

Definition mh_step (is_class : bool) (data : list (list Qc)) (classes : list Qc)
  (minmax : option (list Qc * list Qc)) (dd : option ddict) (bt : bintype) (B : nat)
  (s : mhstate) (f : nat) : res mhstate :=
  let N := length data in
  do f_data <- col data f;
  (* utils.py:161-166 *)
  do DU <- match dd with
           | None => Ok (None, None)
           | Some d =>
               do v <- dd_get d f;
               if length (dval_list v) =? 0 then Ok (None, None)
               else Ok (Some (length (dval_list v)), Some v)
           end;
  let '(D, uf) := DU : option nat * option dval in
  let ty := match bt with BAuto => choose_bin_type D N B | _ => bt end in
  (* utils.py:173-188 *)
  do nbmm <- match ty with
             | DISCRETE =>
                 match dd, D with
                 | None, _ => Err TypeError
                 | Some _, None => Err AssertionError
                 | Some _, Some d => Ok (d, Q2Qc 0, Q2Qc 0)
                 end
             | IDENTITY => Ok (N, Q2Qc 0, Q2Qc 0)
             | LINEAR =>
                 match minmax with
                 | None => do a <- list_min f_data; do b <- list_max f_data; Ok (mh_nb s, a, b)
                 | Some (mn, mx) =>
                     do a <- nth_res mn f; do b <- nth_res mx f; Ok (mh_nb s, a, b)
                 end
             | RANDOM => do a <- list_min f_data; do b <- list_max f_data; Ok (mh_nb s, a, b)
             | BAuto | BOther => Ok (mh_nb s, Q2Qc 0, Q2Qc 0)
             end;
  let '(nb, mn, mx) := nbmm in
  do ht <- new_hist is_class f uf f_data classes nb mn mx ty (mh_np s);
  let '(h, np') := ht in
  Ok {| mh_nb := nb; mh_np := np'; mh_hists := mh_hists s ++ [h];
        mh_not := mh_not s ++ map (fun b => (f, b)) (seq (h_nb h) (B - h_nb h));
        mh_cons := mh_cons s ++ map (fun b => (f, b)) (seq 0 (h_nb h)) |}.

Definition make_histograms (is_class : bool) (data : list (list Qc)) (labels : list Qc)
  (minmax : option (list Qc * list Qc)) (dd : option ddict) (bt : bintype) (B : nat)
  (np : tape) : res mhstate :=
  do r0 <- nth_res data 0;
  let classes := if is_class then unique labels else [] in
  foldM (mh_step is_class data classes minmax dd bt B)
        {| mh_nb := B; mh_np := np; mh_hists := []; mh_not := []; mh_cons := [] |}
        (seq 0 (length r0)).

(** Feature subsampling option (utils.py:211-238). *)
Inductive fsub := FSNone | FSSqrt | FSInt (k : Z) | FSFloat (r : Qc) | FSOther.

(** choose_features, utils.py:211-238.  ceil(sqrt F) is computed on integers (the float
    square root agrees for realistic F). *)
Definition choose_features (feats : list nat) (fs : fsub) (gen : tape) : res (list nat * tape) :=
  let F := length feats in
  match fs with
  | FSNone => Ok (feats, gen)
  | FSSqrt => choice_norepl feats (Nat.sqrt_up F) gen
  | FSInt k => if (k <? 0)%Z then Err ValueError else choice_norepl feats (Z.to_nat k) gen
  | FSFloat r =>
      let z := qceil (r * Nq F)%Qc in
      if (z <? 0)%Z then Err ValueError else choice_norepl feats (Z.to_nat z) gen
  | FSOther => Err NotImplementedError
  end.

(** remap_discrete_features, utils.py:241-259. *)
Definition remap_discrete_features (feats : list nat) (d : ddict) : res ddict :=
  match dd_items d with
  | [] => Ok {| dd_default := true; dd_items := [] |}
  | _ =>
      do vals <- mapM (dd_get d) feats;
      Ok {| dd_default := false; dd_items := combine (seq 0 (length feats)) vals |}
  end.

(** empty_histograms, utils.py:262-269. *)
Definition empty_histograms (hists : list hist) (arms : list (nat * nat)) : res (list hist) :=
  foldM (fun hs a =>
           do h <- nth_res hs (fst a);
           do h' <- empty_samples h;
           Ok (set_nth (fst a) h' hs)) hists arms.

(** get_subset_2d, utils.py:272-281.  The numba loop does not check bounds; an index out of
    range is modelled as IndexError. *)
Definition get_subset_2d (src : list (list Qc)) (rows cols : list nat) : res (list (list Qc)) :=
  mapM (fun i => do r <- nth_res src i; mapM (fun j => nth_res r j) cols) rows.

(** labels[idcs] *)
Definition take_idx {A} (l : list A) (idcs : list nat) : res (list A) :=
  mapM (nth_res l) idcs.

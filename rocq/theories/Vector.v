(** Model of the branches that utils/constants.py:10 switches off (VECTORIZE = False): the
    vectorised Histogram.add and get_impurity_reductions.  Label arrays are assumed to have
    an integer dtype where the code requires it; class labels that are not whole numbers are
    rejected. *)
From Coq Require Import List Arith Bool ZArith QArith Qcanon Lia.
From Verif Require Import Base Num Rng Histogram Criteria.
Import ListNotations.
Local Open Scope nat_scope.

(** A value used as an array index: whole numbers only (numpy raises IndexError, np.zeros
    TypeError on others). *)
Definition as_int (q : Qc) : res Z := if (Qden q =? 1)%positive then Ok (Qnum q) else Err TypeError.

(** numpy indexing of an axis of length n: negative indices count from the end. *)
Definition wrap (n : nat) (i : Z) : res nat :=
  if (0 <=? i)%Z && (i <? Z.of_nat n)%Z then Ok (Z.to_nat i)
  else if (i <? 0)%Z && (- Z.of_nat n <=? i)%Z then Ok (Z.to_nat (Z.of_nat n + i))
  else Err IndexError.

(** The table of replace_array, histogram.py:254-258: one slot per number up to the largest
    key, zero where there is no key.  max of an empty array and a negative size raise
    ValueError. *)
Definition key_table (classes : list Qc) : res (list nat) :=
  do ks <- mapM as_int classes;
  match ks with
  | [] => Err ValueError
  | k :: t =>
      let size := (fold_left Z.max t k + 1)%Z in
      do _ <- guard (0 <=? size)%Z ValueError;
      foldM (fun mp kv => do i <- wrap (length mp) (fst kv); Ok (set_nth i (snd kv) mp))
            (repeat 0 (Z.to_nat size)) (combine ks (seq 0 (length classes)))
  end.

(** replace_array(Y, class_to_idx), histogram.py:242-259; class_to_idx numbers the classes
    in order (histogram.py:39). *)
Definition replace_array (Y classes : list Qc) : res (list nat) :=
  do mp <- key_table classes;
  mapM (fun y => do k <- as_int y; do i <- wrap (length mp) k; nth_res mp i) Y.

(** np.bincount. *)
Definition bincount (l : list nat) : list nat :=
  match l with
  | [] => []
  | _ => map (fun k => count_occ Nat.eq_dec l k) (seq 0 (S (fold_right Nat.max 0 l)))
  end.

(** hist[b], histogram.py:142-150: the counts of the labels in bin b, every class listed
    once more, minus one; the assignment needs one entry per class. *)
Definition bin_row (idx newY : list nat) (K b : nat) : res (list nat) :=
  let sel := map snd (filter (fun iy => fst iy =? b) (combine idx newY)) in
  let c := bincount (sel ++ seq 0 K) in
  do _ <- guard (length c =? K) ValueError;
  Ok (map Nat.pred c).

Definition add_rows (a b : list nat) : list nat := mapi (fun k c => c + nth k b 0) a.

(** [right[:b] += row; left[b:] += row], histogram.py:151-153. *)
Definition add_bin (lr : list (list nat) * list (list nat)) (bh : nat * list nat) :=
  (mapi (fun i r => if fst bh <=? i then add_rows r (snd bh) else r) (fst lr),
   mapi (fun i r => if i <? fst bh then add_rows r (snd bh) else r) (snd lr)).

(** Histogram.add with VECTORIZE, histogram.py:116-153.  The regression branch is not
    affected by the switch. *)
Definition vec_add (h : hist) (X : list (list Qc)) (Y : list Qc) : res hist :=
  if h_class h then
    do fvals <- col X (h_feat h);
    do edges <- opt_res (h_edges h) AttributeError;
    do _ <- guard ((length edges =? length (h_left h)) && (length (h_left h) =? length (h_right h))
                   && (length (h_right h) =? h_nb h)) AssertionError;
    do _ <- guard (length X =? length Y) AssertionError;
    let idx := map (get_bin (h_type h) (h_min h) (h_max h) (h_nb h) edges) fvals in
    do newY <- replace_array Y (h_classes h);
    let K := length (h_classes h) in
    do rows <- mapM (bin_row idx newY K) (seq 0 (S (h_nb h)));
    do _ <- guard (forallb (fun r => length r =? K) (h_left h ++ h_right h)) ValueError;
    let lr := fold_left add_bin (combine (seq 0 (S (h_nb h))) rows) (h_left h, h_right h) in
    Ok (set_counts h (fst lr) (snd lr))
  else hist_add h X Y.

(** ** get_impurity_reductions with VECTORIZE, criteria.py:195-246 *)

(** (left_sum * pop_size / n).astype(np.int64), criteria.py:211-216; the cast of NaN (n = 0)
    is not modelled. *)
Definition side_sizes (pop : option nat) (ks ns : list nat) : res (list (option nat)) :=
  match pop with
  | None => Ok (map (fun _ => None) ks)
  | Some s => mapM (fun kn => do _ <- guard (negb (snd kn =? 0)) Unmodelled; Ok (Some (fst kn * s / snd kn))) (combine ks ns)
  end.

(** get_entropy on several rows of counts with ret_var=True, criteria.py:52-93.  log_p[-1] is
    the last row; (B, K-1) is broadcast against (1, K), which works for K <= 2 only. *)
Definition vec_entropy (M : math) (rows : list (list nat)) (sizes : list (option nat)) (ns : list nat) : res (list (Qc * xn)) :=
  let ps := map (fun rn => class_probs (fst rn) (snd rn)) (combine rows ns) in
  let logs := map (map (fun x => nan_to_num (xlog M x))) ps in
  let E := map (fun pl => qsum (map (fun xl => - snd xl * fst xl)%Qc (combine (fst pl) (snd pl)))) (combine ps logs) in
  match rev logs with
  | [] => Err IndexError
  | [] :: _ | [_] :: _ => Ok (map (fun e => (e, Fin 0)) E)
  | [m0; m1] :: _ =>
      Ok (map (fun x => let '(e, (l, (p, (s, n)))) := x in
                        let l0 := nth 0 l 0%Qc in
                        let v := prob_var s n (nth 0 p 0%Qc) in
                        let term (m : Qc) := let d := (- l0 + m)%Qc in xmul (Fin (d * d)%Qc) v in
                        (e, xadd (term m0) (xadd (term m1) (Fin 0))))
              (combine E (combine logs (combine ps (combine sizes ns)))))
  | _ => Err ValueError
  end.

(** get_impurity on the rows of one side, criteria.py:220-226. *)
Definition vec_class (M : math) (m : measure) (rows : list (list nat)) (sizes : list (option nat)) (ns : list nat) : res (list (Qc * xn)) :=
  match m with
  | GINI | MAuto => mapM (fun x => get_gini (fst x) (fst (snd x)) (Some (snd (snd x)))) (combine rows (combine sizes ns))
  | ENTROPY => vec_entropy M rows sizes ns
  | MSE => Err TypeError
  | MOther => Err UnboundLocalError
  end.
(** get_impurity on all rows, criteria.py:227-229 (n is left to the function). *)
Definition whole_class (M : math) (m : measure) (counts : list nat) (pop : option nat) : res (Qc * xn) :=
  match m with
  | GINI | MAuto => get_gini counts pop None
  | ENTROPY => get_entropy M counts pop None
  | MSE => Err TypeError
  | MOther => Err UnboundLocalError
  end.
(** criteria.py:231-239; get_gini and get_entropy have no parameter args. *)
Definition vec_regr (m : measure) (piles : list pile) (sizes : list (option nat)) : res (list (Qc * xn)) :=
  match m with
  | MSE | MAuto => mapM (fun x => do r <- get_mse (fst x) (snd x); Ok (fst r, Fin (snd r))) (combine piles sizes)
  | GINI | ENTROPY => Err TypeError
  | MOther => Err UnboundLocalError
  end.

(** The weighted sides and the whole put together, criteria.py:217-218, 240-247. *)
Definition vec_side (x : (Qc * xn) * (nat * nat)) : xn * xn :=
  let w := xdiv (Fin (Nq (fst (snd x)))) (Fin (Nq (snd (snd x)))) in
  (xmul (Fin (fst (fst x))) w, xmul (snd (fst x)) (xmul w w)).
Definition vec_combine (il ir : list (Qc * xn)) (lsum rsum ns : list nat) (c : Qc * xn) : list xn * list xn :=
  let L := map vec_side (combine il (combine lsum ns)) in
  let R := map vec_side (combine ir (combine rsum ns)) in
  (map (fun lr => xsub (xadd (fst (fst lr)) (fst (snd lr))) (Fin (fst c))) (combine L R),
   map (fun lr => xadd (xadd (snd c) (snd (fst lr))) (snd (snd lr))) (combine L R)).

Definition vec_reductions (M : math) (m : measure) (h : hist) (bins : list nat) (pop : option nat) : res (list xn * list xn) :=
  if h_class h then
    do ls <- mapM (nth_res (h_left h)) bins;
    do rs <- mapM (nth_res (h_right h)) bins;
    let lsum := map sum_nat ls in
    let rsum := map sum_nat rs in
    let ns := map (fun ab => fst ab + snd ab) (combine lsum rsum) in
    do lsz <- side_sizes pop lsum ns;
    do rsz <- side_sizes pop rsum ns;
    do il <- vec_class M m ls lsz lsum;
    do ir <- vec_class M m rs rsz rsum;
    do l0 <- nth_res ls 0;
    do r0 <- nth_res rs 0;
    do c <- whole_class M m (map (fun ab => fst ab + snd ab) (combine l0 r0)) pop;
    Ok (vec_combine il ir lsum rsum ns c)
  else
    do ls <- mapM (nth_res (h_lpile h)) bins;
    do rs <- mapM (nth_res (h_rpile h)) bins;
    let lsum := map p_n ls in
    let rsum := map p_n rs in
    let ns := map (fun ab => fst ab + snd ab) (combine lsum rsum) in
    do lsz <- side_sizes pop lsum ns;
    do rsz <- side_sizes pop rsum ns;
    do il <- vec_regr m ls lsz;
    do ir <- vec_regr m rs rsz;
    do c <- vec_regr m [h_cpile h] [pop];
    do c <- nth_res c 0;
    Ok (vec_combine il ir lsum rsum ns c).

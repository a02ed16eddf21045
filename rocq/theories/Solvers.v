(** Model of utils/solvers.py. *)
From Coq Require Import List Arith Bool ZArith QArith Qcanon Lia.
From Verif Require Import Base Num Rng Histogram Utils Criteria.
Import ListNotations.
Local Open Scope nat_scope.

(** verify_reduction, solvers.py:34-68 (TOLERANCE = -0.1, constants.py:4). *)
Definition tolerance : Qc := Q2Qc (-1 # 10).

Definition dot_self (counts : list nat) (n : nat) : Qc :=
  qsum (map (fun c => let p := (Nq c / Nq n)%Qc in (p * p)%Qc) counts).

Definition verify_reduction (data : list (list Qc)) (labels : list Qc) (feature : nat) (value : Qc)
  : res bool :=
  let d := class_to_idx (unique labels) in
  do counts <- counts_of_labels d labels;
  do c <- col data feature;
  let root := (1 - dot_self counts (length labels))%Qc in
  let L := map snd (filter (fun p => qle (fst p) value) (combine c labels)) in
  do lc <- counts_of_labels d L;
  if length L =? 0 then Ok false else
  let R := map snd (filter (fun p => qlt value (fst p)) (combine c labels)) in
  do rc <- counts_of_labels d R;
  if length R =? 0 then Ok false else
  let sl := sum_nat lc in
  let sr := sum_nat rc in
  let split := (((1 - dot_self lc sl) * Nq sl + (1 - dot_self rc sr) * Nq sr) / Nq (length labels))%Qc in
  Ok (qlt tolerance (root - split)%Qc).

(** filter_tied_arms, solvers.py:479-496: np.setdiff1d sorts and deduplicates. *)
Fixpoint ninsert (a : nat) (l : list nat) : list nat :=
  match l with
  | [] => [a]
  | b :: t => if a <? b then a :: l else if a =? b then l else b :: ninsert a t
  end.
Definition nunique (l : list nat) : list nat := fold_right ninsert [] l.

Definition filter_tied_arms (cand tied : list (nat * nat)) (B : nat) : list (nat * nat) :=
  let flat := map (fun c => B * fst c + snd c) in
  let diff := filter (fun i => negb (existsb (Nat.eqb i) (flat tied))) (nunique (flat cand)) in
  map (fun i => (i / B, i mod B)) diff.

(** ** Two-dimensional arrays *)
Definition upd {A} (m : nat -> nat -> A) (c : nat * nat) (v : A) : nat -> nat -> A :=
  fun f b => if (f =? fst c) && (b =? snd c) then v else m f b.

(** m[accesses] = vals, left to right. *)
Definition upds {A} (m : nat -> nat -> A) (acc : list (nat * nat)) (vals : list A) : nat -> nat -> A :=
  fold_left (fun m cv => upd m (fst cv) (snd cv)) (combine acc vals) m.

(** m[accesses] = c for one value c. *)
Definition upd_const {A} (m : nat -> nat -> A) (acc : list (nat * nat)) (v : A) : nat -> nat -> A :=
  fold_left (fun m c => upd m c v) acc m.

Definition flat {A} (F B : nat) (m : nat -> nat -> A) : list A :=
  map (fun c => m (fst c) (snd c)) (cells F B).

Definition in_range (F B : nat) (acc : list (nat * nat)) : bool :=
  forallb (fun c => (fst c <? F) && (snd c <? B)) acc.

(** ** sample_targets, solvers.py:71-160 *)

(** f2bin_dict, solvers.py:100-108: bins grouped by feature, features in order of first
    appearance. *)
Fixpoint group_add (f b : nat) (g : list (nat * list nat)) : list (nat * list nat) :=
  match g with
  | [] => [(f, [b])]
  | (f', bs) :: t => if f =? f' then (f', bs ++ [b]) :: t else (f', bs) :: group_add f b t
  end.
Definition f2bin (arms : list (nat * nat)) : list (nat * list nat) :=
  fold_left (fun g a => group_add (fst a) (snd a) g) arms [].

(** The rows drawn by one call (solvers.py:113-133): sample indices, population size used
    for the correction, remaining population, generator. *)
Definition draw_rows (N : nat) (batch : nat) (pop : option (list nat)) (gen : tape)
  : res (list nat * option nat * option (list nat) * tape) :=
  match pop with
  | None =>
      if N <=? batch then Ok (arange N, Some N, None, gen)
      else do r <- choice_repl (arange N) batch gen;
           Ok (fst r, None, None, snd r)
  | Some P =>
      let m := length P in
      do r <- (if m <=? batch then Ok (arange m, gen) else choice_norepl (arange m) batch gen);
      let idcs := fst r in
      do sample <- take_idx P idcs;
      let rest := map snd (filter (fun ip => negb (existsb (Nat.eqb (fst ip)) idcs))
                                  (combine (seq 0 m) P)) in
      Ok (sample, Some N, Some rest, snd r)
  end.

(** The loop over features, solvers.py:138-157. *)
Record ststate := { st_hists : list hist; st_ir : list xn; st_cb : list xn; st_q : nat }.

Definition st_step (M : math) (m : measure) (X : list (list Qc)) (Y : list Qc) (psize : option nat)
  (s : ststate) (fb : nat * list nat) : res ststate :=
  do h <- nth_res (st_hists s) (fst fb);
  do h' <- hist_add h X Y;
  do rv <- get_impurity_reductions M m h' (snd fb) psize;
  Ok {| st_hists := set_nth (fst fb) h' (st_hists s);
        st_ir := st_ir s ++ map Fin (fst rv);
        st_cb := st_cb s ++ map (xsqrt M) (snd rv);
        st_q := st_q s + length X |}.

Record stres := {
  sr_ir : list xn; sr_cb : list xn; sr_q : nat;
  sr_pop : option (list nat); sr_hists : list hist; sr_gen : tape
}.

Definition sample_targets (M : math) (m : measure) (data : list (list Qc)) (labels : list Qc)
  (arms : list (nat * nat)) (hists : list hist) (batch : nat) (pop : option (list nat)) (gen : tape)
  : res stres :=
  do d <- draw_rows (length data) batch pop gen;
  let '(idcs, psize, pop', gen') := d in
  do X <- take_idx data idcs;
  do Y <- take_idx labels idcs;
  do s <- foldM (st_step M m X Y psize)
                {| st_hists := hists; st_ir := []; st_cb := []; st_q := 0 |} (f2bin arms);
  Ok {| sr_ir := st_ir s; sr_cb := st_cb s; sr_q := st_q s; sr_pop := pop';
        sr_hists := st_hists s; sr_gen := gen' |}.

(** Options shared by the two solvers. *)
Record scfg := {
  s_class : bool;
  s_measure : measure;
  s_bin : bintype;
  s_nb : nat;
  s_minmax : option (list Qc * list Qc);
  s_dd : option ddict
}.

(** What a solver returns: a 4-tuple or just the number of queries. *)
Inductive sres := Found (f : nat) (v : Qc) (r : xn) (q : nat) | NoSplit (q : nat).

Definition sres_q (r : sres) : nat := match r with Found _ _ _ q => q | NoSplit q => q end.

(** estimates[accesses] = vals with numpy's shape and bounds checks. *)
Definition assign (F B : nat) (m : mem2) (acc : list (nat * nat)) (vals : list xn) : res mem2 :=
  do _ <- guard (length acc =? length vals) ValueError;
  do _ <- guard (in_range F B acc) IndexError;
  Ok (upds m acc vals).

(** candidates[:, 0] on an empty (hence 1-D) array raises IndexError. *)
Definition accesses (cand : list (nat * nat)) : res (list (nat * nat)) :=
  match cand with [] => Err IndexError | _ => Ok cand end.

(** The cells holding the minimum estimate (solvers.py:249-252, 454-457). *)
Definition best_cells (F B : nat) (est : mem2) : res (list (nat * nat)) :=
  do mn <- xnanmin_list (flat F B est);
  Ok (filter (fun c => xeq (est (fst c) (snd c)) mn) (cells F B)).

(** histograms[f].bin_edges[b], then the final comparison (solvers.py:253-260, 459-476). *)
Definition finish (hists : list hist) (est : mem2) (mir : Qc) (c : nat * nat) (q : nat) : res sres :=
  do h <- nth_res hists (fst c);
  do e <- opt_res (h_edges h) AttributeError;
  do v <- nth_res e (snd c);
  let r := est (fst c) (snd c) in
  Ok (if xlt r (Fin mir) then Found (fst c) v r q else NoSplit q).

(** solve_exactly, solvers.py:163-260.  An all-NaN estimate array would raise StopIteration
    (rendered as GenericException). The generator default_rng(0) is never consulted because
    the whole population is taken. *)
Definition solve_exactly (M : math) (c : scfg) (data : list (list Qc)) (labels : list Qc)
  (mir : Qc) (e0 : env) : res (sres * env) :=
  let '(j, e) := alloc e0 in
  let N := length data in
  do r0 <- nth_res data 0;
  let F := length r0 in
  let B := match s_bin c with IDENTITY => N | _ => s_nb c end in
  do mh <- make_histograms (s_class c) data labels (s_minmax c) (s_dd c) (s_bin c) B (e_np e);
  let e := set_np e (mh_np mh) in
  let nonempty := negb (length (mh_not mh) =? 0) in
  do _ <- guard (in_range F B (mh_not mh)) IndexError;
  let est0 := upd_const (j_est j) (mh_not mh) PInf in
  let cand := if nonempty then mh_cons mh else cells F B in
  do acc <- accesses cand;
  do s <- sample_targets M (s_measure c) data labels acc (mh_hists mh) N (Some (arange N)) [];
  do est <- assign F B est0 acc (sr_ir s);
  do best <- best_cells F B est;
  match best with
  | [] => Err GenericException
  | b :: _ => do r <- finish (sr_hists s) est mir b (sr_q s); Ok (r, e)
  end.

(** ** solve_mab, solvers.py:263-476 *)
Record mstate := {
  ms_cand : list (nat * nat);
  ms_est : mem2; ms_lcb : mem2; ms_ucb : mem2;
  ms_ns : nat -> nat -> nat;
  ms_exact : nat -> nat -> bool;
  ms_hists : list hist;
  ms_pop : option (list nat);
  ms_q : nat;
  ms_gen : tape
}.

(** Static data of the loop. *)
Record mcfg := {
  mc_F : nat; mc_B : nat; mc_N : nat;
  mc_measure : measure;
  mc_data : list (list Qc); mc_labels : list Qc;
  mc_eps : Qc; mc_repl : bool; mc_budget : option Z; mc_batch : nat; mc_mir : Qc
}.

(** (budget is not None) and (budget - total_queries <= 0) *)
Definition over_budget (budget : option Z) (q : nat) : bool :=
  match budget with None => false | Some b => (b - Z.of_nat q <=? 0)%Z end.

Definition sub_const (est : list xn) (cb : list xn) : list xn := map (fun p => xsub (fst p) (snd p)) (combine est cb).
Definition add_const (est : list xn) (cb : list xn) : list xn := map (fun p => xadd (fst p) (snd p)) (combine est cb).

(** The exact-computation block for sampling with replacement, solvers.py:361-394; the
    boolean says whether the loop breaks. *)
Definition exact_block (M : math) (k : mcfg) (s : mstate) : res (mstate * bool) :=
  let F := mc_F k in let B := mc_B k in let N := mc_N k in
  let acc := filter (fun c => (N <=? ms_ns s (fst c) (snd c) + mc_batch k)
                              && negb (ms_exact s (fst c) (snd c))) (cells F B) in
  if length acc =? 0 then Ok (s, false) else
  do hs <- empty_histograms (ms_hists s) acc;
  do r <- sample_targets M (mc_measure k) (mc_data k) (mc_labels k) acc hs N None [];
  do est <- assign F B (ms_est s) acc (sr_ir r);
  do lcb <- assign F B (ms_lcb s) acc (sr_ir r);
  do ucb <- assign F B (ms_ucb s) acc (sr_ir r);
  let ex := upd_const (ms_exact s) acc true in
  let ns := fold_left (fun m c => upd m c (m (fst c) (snd c) + N)) acc (ms_ns s) in
  do um <- xmin_list (flat F B ucb);
  do lm <- xmin_list (flat F B lcb);
  let cand := filter (fun c => xlt (lcb (fst c) (snd c)) um && negb (ex (fst c) (snd c))) (cells F B) in
  let q := ms_q s + sr_q r in
  let s' := {| ms_cand := cand; ms_est := est; ms_lcb := lcb; ms_ucb := ucb; ms_ns := ns;
               ms_exact := ex; ms_hists := sr_hists r; ms_pop := ms_pop s; ms_q := q;
               ms_gen := ms_gen s |} in
  Ok (s', over_budget (mc_budget k) q || xlt (Fin 0) lm).

(** tied_arms, solvers.py:441-444. *)
Definition tied (k : mcfg) (est : mem2) (mi : nat * nat) : nat -> nat -> bool :=
  upd (fun f b => xlt (est f b) (xmul (Fin (1 - mc_eps k)%Qc) (est (fst mi) (snd mi)))) mi false.

(** The sampling block, solvers.py:403-452. *)
Definition sample_block (M : math) (k : mcfg) (s : mstate) : res (mstate * bool) :=
  let F := mc_F k in let B := mc_B k in
  do acc <- accesses (ms_cand s);
  do r <- sample_targets M (mc_measure k) (mc_data k) (mc_labels k) acc (ms_hists s)
                         (mc_batch k) (ms_pop s) (ms_gen s);
  do est <- assign F B (ms_est s) acc (sr_ir r);
  do lcb <- assign F B (ms_lcb s) acc (sub_const (sr_ir r) (sr_cb r));
  do ucb <- assign F B (ms_ucb s) acc (add_const (sr_ir r) (sr_cb r));
  let ns := fold_left (fun m c => upd m c (m (fst c) (snd c) + mc_batch k)) acc (ms_ns s) in
  let q := ms_q s + sr_q r in
  let mk cand := {| ms_cand := cand; ms_est := est; ms_lcb := lcb; ms_ucb := ucb; ms_ns := ns;
                    ms_exact := ms_exact s; ms_hists := sr_hists r; ms_pop := sr_pop r; ms_q := q;
                    ms_gen := sr_gen r |} in
  if over_budget (mc_budget k) q then Ok (mk (ms_cand s), true) else
  do lm <- xmin_list (flat F B lcb);
  if xlt (Fin 0) lm then Ok (mk (ms_cand s), true) else
  do ai <- argmin (flat F B est);
  let mi := (ai / B, ai mod B) in
  do um <- xmin_list (flat F B ucb);
  let td := tied k est mi in
  let cand := filter (fun c => let f := fst c in let b := snd c in
                 negb (ms_exact s f b) && xlt (lcb f b) um && xlt (lcb f b) (Fin (mc_mir k))
                 && negb (td f b)) (cells F B) in
  Ok (mk cand, false).

(** One iteration of the while loop, solvers.py:357-452; true means break. *)
Definition mab_body (M : math) (k : mcfg) (s : mstate) : res (mstate * bool) :=
  do sb <- (if mc_repl k then exact_block M k s else Ok (s, false));
  let '(s1, brk) := sb in
  if brk then Ok (s1, true) else
  if length (ms_cand s1) <=? 1 then Ok (s1, true) else
  match ms_pop s1 with
  | Some [] => Ok (s1, true)
  | _ => sample_block M k s1
  end.

Fixpoint mab_loop (M : math) (k : mcfg) (fuel : nat) (s : mstate) : res mstate :=
  if 5 <? length (ms_cand s) then
    match fuel with
    | 0 => Err OutOfFuel
    | S fuel' =>
        do sb <- mab_body M k s;
        let '(s', brk) := sb in
        if brk then Ok s' else mab_loop M k fuel' s'
    end
  else Ok s.

Definition mab_fuel (F B N : nat) : nat := F * B * N + N + 2.

(** solve_mab, solvers.py:263-476. *)
Definition solve_mab (M : math) (c : scfg) (eps : Qc) (repl : bool) (budget : option Z) (batch : nat)
  (data : list (list Qc)) (labels : list Qc) (mir : Qc) (e0 : env) : res (sres * env) :=
  let '(j, e) := alloc e0 in
  let N := length data in
  do r0 <- nth_res data 0;
  let F := length r0 in
  match s_bin c with
  | IDENTITY => Err GenericException
  | _ =>
  let B := s_nb c in
  let pop := if repl then None else Some (arange N) in
  do mh <- make_histograms (s_class c) data labels (s_minmax c) (s_dd c) (s_bin c) B (e_np e);
  let e := set_np e (mh_np mh) in
  let nonempty := negb (length (mh_not mh) =? 0) in
  do _ <- guard (in_range F B (mh_not mh)) IndexError;
  let nc := mh_not mh in
  let s0 := {| ms_cand := if nonempty then mh_cons mh else cells F B;
               ms_est := upd_const (j_est j) nc PInf;
               ms_lcb := upd_const (j_lcb j) nc NInf;
               ms_ucb := upd_const (j_ucb j) nc PInf;
               ms_ns := fun _ _ => 0;
               ms_exact := upd_const (fun _ _ => false) nc true;
               ms_hists := mh_hists mh; ms_pop := pop; ms_q := 0; ms_gen := e_gen e |} in
  let k := {| mc_F := F; mc_B := B; mc_N := N; mc_measure := s_measure c; mc_data := data;
              mc_labels := labels; mc_eps := eps; mc_repl := repl; mc_budget := budget;
              mc_batch := batch; mc_mir := mir |} in
  do s <- mab_loop M k (mab_fuel F B N) s0;
  let e := set_gen e (ms_gen s) in
  do best <- best_cells F B (ms_est s);
  do bp <- choice_one best (e_py e);
  let e := set_py e (snd bp) in
  do r <- finish (ms_hists s) (ms_est s) mir (fst bp) (ms_q s);
  Ok (r, e)
  end.

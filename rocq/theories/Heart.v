(** Model of experiments/heart: preprocess_heart.py, get_subset and split_data of fit_heart.py,
    and the verdict of experiment_cf in compare_experiment.py.  Not modelled: files, sweeps and
    the fitting itself, which names a class Forest that neither file imports (fit_heart.py:169,
    compare_experiment.py:44, 89). *)
From Coq Require Import List Arith Bool ZArith QArith Qcanon.
From Verif Require Import Base Num Rng Utils.
Import ListNotations.
Local Open Scope nat_scope.

(** A data frame: named columns in order.  Values are numbers; a column of strings is
    represented by numbers in the same order.  [Dummy v] is the name get_dummies makes of the
    value v; such names are taken to be different from those of the file. *)
Inductive cname := Named (n : nat) | Dummy (v : Qc).
Definition cname_eqb (a b : cname) : bool :=
  match a, b with Named n, Named m => n =? m | Dummy v, Dummy w => qeq v w | _, _ => false end.
Definition frame := list (cname * list Qc).

(** list.index. *)
Fixpoint index_of (c : cname) (l : list cname) : res nat :=
  match l with
  | [] => Err ValueError
  | b :: t => if cname_eqb c b then Ok 0 else do i <- index_of c t; Ok (S i)
  end.
(** df[c] and df[cs]. *)
Fixpoint column (df : frame) (c : cname) : res (list Qc) :=
  match df with
  | [] => Err KeyError
  | (b, v) :: t => if cname_eqb c b then Ok v else column t c
  end.
Definition select (df : frame) (cs : list cname) : res frame := mapM (fun c => do v <- column df c; Ok (c, v)) cs.

(** swap_columns, preprocess_heart.py:6-19. *)
Definition swap_columns (df : frame) (c1 c2 : cname) : res frame :=
  let cs := map fst df in
  do x <- index_of c1 cs;
  do y <- index_of c2 cs;
  do a <- nth_res cs x;
  do b <- nth_res cs y;
  select df (set_nth x b (set_nth y a cs)).

(** One column of the loop, preprocess_heart.py:33-39: df[column][0] needs a first row, and a
    value is never equal to the type float, so every column is encoded. *)
Definition encode (cv : cname * list Qc) : res (cname * list Qc) :=
  do _ <- guard (negb (length (snd cv) =? 0)) KeyError;
  let cf := unique (snd cv) in
  do w <- mapM (fun x => do i <- opt_res (qindex x cf) KeyError; Ok (Nq i)) (snd cv);
  Ok (fst cv, w).

(** pd.get_dummies of one column. *)
Definition get_dummies (v : list Qc) : frame := map (fun u => (Dummy u, map (fun x => if qeq x u then 1%Qc else 0%Qc) v)) (unique v).

(** preprocess_heart, preprocess_heart.py:22-50; [race] is the name "Race". *)
Definition preprocess (race : cname) (df : frame) : res frame :=
  do last_column <- nth_res (rev df) 0;
  do df1 <- swap_columns df race (fst last_column);
  do body <- mapM encode (removelast df1);
  let df2 := body ++ skipn (length df1 - 1) df1 in
  do r <- column df2 race;
  let df3 := filter (fun cv => negb (cname_eqb race (fst cv))) df2 ++ get_dummies r in
  match df3 with
  | [] => Err IndexError
  | c0 :: rest => Ok (rest ++ [c0])
  end.

(** get_subset, fit_heart.py:31-48; [g] is np.random.RandomState(seed). *)
Definition get_subset (X : list (list Qc)) (Y : list Qc) (k : nat) (g : tape) : res (list (list Qc) * list Qc) :=
  do _ <- guard (k <=? length Y) AssertionError;
  do _ <- guard (length X =? length Y) AssertionError;
  do r <- choice_norepl (arange (length Y)) k g;
  do xs <- mapM (nth_res X) (fst r);
  do ys <- mapM (nth_res Y) (fst r);
  Ok (xs, ys).

(** scikit-learn's train_test_split as the positions it puts in the two parts. *)
Definition splitter_fn := nat -> Qc -> nat -> res (list nat * list nat).
Definition train_test (tts : splitter_fn) (X : list (list Qc)) (Y : list Qc) (size : Qc) (seed : nat)
  : res (list (list Qc) * list (list Qc) * list Qc * list Qc) :=
  do _ <- guard (length X =? length Y) ValueError;
  do p <- tts (length Y) size seed;
  do a <- mapM (nth_res X) (fst p);
  do b <- mapM (nth_res X) (snd p);
  do c <- mapM (nth_res Y) (fst p);
  do d <- mapM (nth_res Y) (snd p);
  Ok (a, b, c, d).

(** split_data, fit_heart.py:51-87, with is_balanced=False; [subset] None is -1.  A ratio that
    sums to zero is not modelled. *)
Record parts := { pa_train : list (list Qc) * list Qc; pa_val : list (list Qc) * list Qc; pa_test : list (list Qc) * list Qc }.
Definition split_data (tts : splitter_fn) (X : list (list Qc)) (Y : list Qc) (r0 r1 r2 : Qc) (subset : option nat) (seed : nat) (g : tape) : res parts :=
  let s := (r0 + r1 + r2)%Qc in
  do _ <- guard (negb (qeq s 0%Qc)) Unmodelled;
  let q0 := (r0 / s)%Qc in let q1 := (r1 / s)%Qc in let q2 := (r2 / s)%Qc in
  do xy <- match subset with None => Ok (X, Y) | Some k => get_subset X Y k g end;
  do a <- train_test tts (fst xy) (snd xy) q2 seed;
  let '(Xtr, Xte, Ytr, Yte) := a in
  do _ <- guard (negb (qeq (q0 + q1)%Qc 0%Qc)) Unmodelled;
  do b <- train_test tts Xtr Ytr (q1 / (q0 + q1))%Qc seed;
  let '(Xtr', Xva, Ytr', Yva) := b in
  Ok {| pa_train := (Xtr', Ytr'); pa_val := (Xva, Yva); pa_test := (Xte, Yte) |}.

(** The two intervals and the flag of experiment_cf, compare_experiment.py:152-156. *)
Definition heart_interval (z m se : Qc) : Qc * Qc := ((m - z * se)%Qc, (m + z * se)%Qc).
Definition heart_overlap (z m1 se1 m2 se2 : Qc) : bool := qlt (Nq 2 * (z * se1 + z * se2))%Qc (m1 - m2)%Qc.

(** Random sources as tapes of naturals.  Decoders are total: any tape is a legal run, and
    any legal outcome has a tape. An exhausted tape yields zeros. *)
From Coq Require Import List Arith Bool ZArith QArith Qcanon Lia.
From Verif Require Import Base Num.
Import ListNotations.
Local Open Scope nat_scope.

Definition tape := list nat.

Definition draw (t : tape) : nat * tape :=
  match t with [] => (0, []) | a :: t' => (a, t') end.

(** [rng.choice(M, size=k, replace=True)] / [np.random.randint(M)], M > 0. *)
Fixpoint draws_mod (M k : nat) (t : tape) : list nat * tape :=
  match k with
  | 0 => ([], t)
  | S k' =>
      let (a, t1) := draw t in
      let (l, t2) := draws_mod M k' t1 in
      ((a mod M) :: l, t2)
  end.

(** [rng.choice(pool, size=k, replace=True)]: ValueError on an empty pool with k > 0. *)
Definition choice_repl (pool : list nat) (k : nat) (t : tape) : res (list nat * tape) :=
  if (length pool =? 0) && negb (k =? 0) then Err ValueError
  else let (l, t') := draws_mod (length pool) k t in
       Ok (map (fun i => nth i pool 0) l, t').

(** Draw k elements in random order without replacement. *)
Fixpoint pick_k (k : nat) (pool : list nat) (t : tape) : list nat * tape :=
  match k with
  | 0 => ([], t)
  | S k' =>
      let (a, t1) := draw t in
      let i := a mod (length pool) in
      let (l, t2) := pick_k k' (remove_nth i pool) t1 in
      (nth i pool 0 :: l, t2)
  end.

(** [rng.choice(pool, k, replace=False)]: ValueError if k exceeds the pool. *)
Definition choice_norepl (pool : list nat) (k : nat) (t : tape) : res (list nat * tape) :=
  if length pool <? k then Err ValueError else Ok (pick_k k pool t).

(** [random.choice(list)] (index into a non-empty list; IndexError on an empty one). *)
Definition choice_one {A} (l : list A) (t : tape) : res (A * tape) :=
  match l with
  | [] => Err IndexError
  | a :: _ => let (d, t') := draw t in Ok (nth (d mod length l) l a, t')
  end.

(** [np.random.uniform(lo, hi, size=k)]: each value lo + (hi-lo)*a/(a+b+1). *)
Fixpoint uniforms (lo hi : Qc) (k : nat) (t : tape) : list Qc * tape :=
  match k with
  | 0 => ([], t)
  | S k' =>
      let (a, t1) := draw t in
      let (b, t2) := draw t1 in
      let u := (Nq a / Nq (a + b + 1))%Qc in
      let (l, t3) := uniforms lo hi k' t2 in
      ((lo + (hi - lo) * u)%Qc :: l, t3)
  end.

(** Contents of a freshly allocated [np.empty] array. *)
Definition mem2 := nat -> nat -> xn.
(** The three arrays a solver call allocates: estimates, lcbs, ucbs. *)
Record junk : Type := { j_est : mem2; j_lcb : mem2; j_ucb : mem2 }.

(** Everything a solver may consult besides its arguments: the tree's generator, numpy's
    and Python's global generators, and the contents of fresh memory (one [junk] per call). *)
Record env : Type := {
  e_gen : tape;
  e_np : tape;
  e_py : tape;
  e_mem : nat -> junk;
  e_calls : nat
}.

Definition set_gen (e : env) (t : tape) : env :=
  {| e_gen := t; e_np := e_np e; e_py := e_py e; e_mem := e_mem e; e_calls := e_calls e |}.
Definition set_np (e : env) (t : tape) : env :=
  {| e_gen := e_gen e; e_np := t; e_py := e_py e; e_mem := e_mem e; e_calls := e_calls e |}.
Definition set_py (e : env) (t : tape) : env :=
  {| e_gen := e_gen e; e_np := e_np e; e_py := t; e_mem := e_mem e; e_calls := e_calls e |}.
(** Allocate the arrays of one solver call. *)
Definition alloc (e : env) : junk * env :=
  (e_mem e (e_calls e),
   {| e_gen := e_gen e; e_np := e_np e; e_py := e_py e; e_mem := e_mem e;
      e_calls := S (e_calls e) |}).

(** Errors, lists and other shared vocabulary of the model.
    Nothing here models a particular function of the repository; these are the
    Python/numpy building blocks the other files use. *)
From Coq Require Import List Arith Bool ZArith Lia.
Import ListNotations.

(** Python exceptions as values.  [Unmodelled] marks inputs the model does not
    describe; [OutOfFuel] marks a while loop cut short (proved unreachable). *)
Inductive exn : Type :=
| AssertionError | TypeError | KeyError | IndexError | AttributeError
| ValueError | ZeroDivisionError | NotImplementedError | GenericException
| UnboundLocalError | OutOfFuel | Unmodelled.

Inductive res (A : Type) : Type :=
| Ok (a : A)
| Err (e : exn).
Arguments Ok {A} a.
Arguments Err {A} e.

Definition rbind {A B} (m : res A) (f : A -> res B) : res B :=
  match m with Ok a => f a | Err e => Err e end.

Notation "'do' x <- m ; k" := (rbind m (fun x => k))
  (at level 200, x pattern, m at level 100, k at level 200, right associativity).

(** [assert c] / [if not c: raise e]. *)
Definition guard (c : bool) (e : exn) : res unit := if c then Ok tt else Err e.

(** [l[i]] with an out-of-range check. *)
Definition nth_res {A} (l : list A) (i : nat) : res A :=
  match nth_error l i with Some a => Ok a | None => Err IndexError end.

(** [getattr(x)] when the attribute may be absent / the value may be None. *)
Definition opt_res {A} (o : option A) (e : exn) : res A :=
  match o with Some a => Ok a | None => Err e end.

(** Left-to-right iteration that stops at the first exception. *)
Fixpoint mapM {A B} (f : A -> res B) (l : list A) : res (list B) :=
  match l with
  | [] => Ok []
  | a :: t => do b <- f a; do bs <- mapM f t; Ok (b :: bs)
  end.

Fixpoint foldM {A S} (f : S -> A -> res S) (s : S) (l : list A) : res S :=
  match l with
  | [] => Ok s
  | a :: t => do s' <- f s a; foldM f s' t
  end.

(** Map with the position of the element. *)
Fixpoint mapi_from {A B} (k : nat) (f : nat -> A -> B) (l : list A) : list B :=
  match l with
  | [] => []
  | a :: t => f k a :: mapi_from (S k) f t
  end.
Definition mapi {A B} (f : nat -> A -> B) (l : list A) : list B := mapi_from 0 f l.

(** [l[i] = a] (no effect out of range: callers check the range where Python would raise). *)
Fixpoint set_nth {A} (i : nat) (a : A) (l : list A) : list A :=
  match l, i with
  | [], _ => []
  | _ :: t, 0 => a :: t
  | x :: t, S j => x :: set_nth j a t
  end.

(** [l.pop(i)] minus the returned value. *)
Fixpoint remove_nth {A} (i : nat) (l : list A) : list A :=
  match l, i with
  | [], _ => []
  | _ :: t, 0 => t
  | x :: t, S j => x :: remove_nth j t
  end.

(** [np.arange(n)]. *)
Definition arange (n : nat) : list nat := seq 0 n.

(** [itertools.product(range(F), range(B))], row-major. *)
Definition cells (F B : nat) : list (nat * nat) := list_prod (seq 0 F) (seq 0 B).

Definition pair_eqb (x y : nat * nat) : bool :=
  (fst x =? fst y) && (snd x =? snd y).

Definition is_ok {A} (r : res A) : bool := match r with Ok _ => true | Err _ => false end.

(** Model of utils/criteria.py. *)
From Coq Require Import List Arith Bool ZArith QArith Qcanon Lia.
From Verif Require Import Base Num Rng Histogram.
Import ListNotations.
Local Open Scope nat_scope.

(** Impurity measures (utils/constants.py:26-28); [MAuto] is the empty string. *)
Inductive measure := GINI | ENTROPY | MSE | MAuto | MOther.

Definition sum_nat (l : list nat) : nat := fold_right Nat.add 0 l.

(** p = nan_to_num(counts / n), criteria.py:32-33 and 75-76. *)
Definition class_probs (counts : list nat) (n : nat) : list Qc :=
  map (fun c => nan_to_num (xdiv (Fin (Nq c)) (Fin (Nq n)))) counts.

(** V_p = p(1-p)/n, times the finite population correction, criteria.py:36-40 and 80-84. *)
Definition prob_var (pop : option nat) (n : nat) (p : Qc) : xn :=
  let v := xdiv (Fin (p * (1 - p))%Qc) (Fin (Nq n)) in
  match pop with
  | None => v
  | Some s => xmul v (xdiv (Fin (Zq (Z.of_nat s - Z.of_nat n))) (Fin (Zq (Z.of_nat s - 1))))
  end.

Definition opt_n (n : option nat) (counts : list nat) : nat :=
  match n with Some k => k | None => sum_nat counts end.

(** get_gini with ret_var=True on one row of counts, criteria.py:9-49: impurity and its
    variance.  p[:, -1] raises IndexError without classes. *)
Definition get_gini (counts : list nat) (pop : option nat) (n : option nat) : res (Qc * xn) :=
  let n := opt_n n counts in
  let p := class_probs counts n in
  let G := (1 - qsum (map (fun x => x * x) p))%Qc in
  match p with
  | [] => Err IndexError
  | _ =>
      let pl := last p 0%Qc in
      let terms := map (fun x => let d := (- (1 + 1) * x + (1 + 1) * pl)%Qc in
                                 xmul (Fin (d * d)%Qc) (prob_var pop n x)) (removelast p) in
      Ok (G, xsum terms)
  end.

(** get_entropy with ret_var=True on one row of counts, criteria.py:52-93.  On a single
    row log_p[-1] is the whole row, so dE_dp broadcasts (1,K-1) against (1,K): for K <= 1
    the sum is empty, for K = 2 both operands have compatible shapes, otherwise numpy
    raises ValueError. *)
Definition get_entropy (M : math) (counts : list nat) (pop : option nat) (n : option nat)
  : res (Qc * xn) :=
  let n := opt_n n counts in
  let p := class_probs counts n in
  let logp := map (fun x => nan_to_num (xlog M x)) p in
  let E := qsum (map (fun xl => - snd xl * fst xl)%Qc (combine p logp)) in
  match p, logp with
  | [], _ | [_], _ => Ok (E, Fin 0)
  | [p0; _], [l0; l1] =>
      let v := prob_var pop n p0 in
      let term (l : Qc) := let d := (- l0 + l)%Qc in xmul (Fin (d * d)%Qc) v in
      Ok (E, xadd (term l0) (xadd (term l1) (Fin 0)))
  | _, _ => Err ValueError
  end.

(** get_gini and get_entropy with ret_var=False on one row of counts, criteria.py:27-33, 49
    and 69-78, 93. *)
Definition gini_value (counts : list nat) (n : option nat) : Qc :=
  let p := class_probs counts (opt_n n counts) in
  (1 - qsum (map (fun x => x * x) p))%Qc.
Definition entropy_value (M : math) (counts : list nat) (n : option nat) : Qc :=
  let p := class_probs counts (opt_n n counts) in
  qsum (map (fun x => - nan_to_num (xlog M x) * x)%Qc p).

(** get_mse with ret_var=True on one pile, criteria.py:96-154 (KURTOSIS = 3,
    constants.py:53). *)
Definition get_mse (a : pile) (pop : option nat) : res (Qc * Qc) :=
  let n := Nq (p_n a) in
  let m2 := p_var a in
  let two := (1 + 1)%Qc in
  let three := (1 + 1 + 1)%Qc in
  let six := (three + three)%Qc in
  match pop with
  | None =>
      let mse := nan_to_num (xdiv (Fin (m2 * n)%Qc) (Fin (n - 1)%Qc)) in
      let fourth := (three * (mse * mse))%Qc in
      let v := xdiv (xsub (Fin fourth) (xdiv (Fin (mse * mse * (n - three))%Qc) (Fin (n - 1)%Qc)))
                    (Fin n) in
      Ok (mse, nan_to_num v)
  | Some s =>
      do _ <- guard (p_n a <=? s) AssertionError;
      let N := Nq s in
      let mse := nan_to_num (xdiv (Fin (m2 * (n * (N - 1)))%Qc) (Fin ((n - 1) * N)%Qc)) in
      let fourth := (three * (mse * mse))%Qc in
      let c1 := xdiv (Fin (N * (N - n) * (N * n - N - n - 1))%Qc)
                     (Fin (n * (n - 1) * (N - 1) * (N - two) * (N - three))%Qc) in
      let c3 := xopp (xdiv (Fin (N * (N - n) * ((N * N) * n - three * n - three * (N * N) + six * N - three))%Qc)
                     (Fin (n * (n - 1) * ((N - 1) * (N - 1)) * (N - two) * (N - three))%Qc)) in
      let v := xadd (xmul c1 (Fin fourth)) (xmul c3 (Fin (mse * mse)%Qc)) in
      Ok (mse, nan_to_num v)
  end.

(** get_impurity_fn followed by the call in get_impurity_reductions, classification case
    (criteria.py:157-168, 282-287): an unknown measure leaves the local unbound, get_mse does
    not accept the keyword n. *)
Definition class_impurity (M : math) (m : measure) (counts : list nat) (pop : option nat) (n : nat)
  : res (Qc * xn) :=
  match m with
  | GINI | MAuto => get_gini counts pop (Some n)
  | ENTROPY => get_entropy M counts pop (Some n)
  | MSE => Err TypeError
  | MOther => Err UnboundLocalError
  end.

(** Conversion float -> int truncates towards zero. *)
Definition ztrunc (q : Qc) : Z := if qle 0 q then qfloor q else (- qfloor (- q)%Qc)%Z.

(** get_gini with ret_var=True on a pile, criteria.py:9-49: the code takes number, mean and variance
    for counts of three classes.  np.sum with an integer dtype truncates each of them. *)
Definition pile_counts (a : pile) : list Qc := [Nq (p_n a); p_mean a; p_var a].
Definition pile_total (a : pile) : Z := fold_right Z.add 0%Z (map ztrunc (pile_counts a)).
Definition gini_of_pile (a : pile) (pop : option nat) : Qc * xn :=
  let n := pile_total a in
  let p := map (fun x => nan_to_num (xdiv (Fin x) (Fin (Zq n)))) (pile_counts a) in
  let var (x : Qc) :=
    let v := xdiv (Fin (x * (1 - x))%Qc) (Fin (Zq n)) in
    match pop with None => v | Some s => xmul v (xdiv (Fin (Zq (Z.of_nat s - n))) (Fin (Zq (Z.of_nat s - 1)))) end in
  let pl := last p 0%Qc in
  ((1 - qsum (map (fun x => x * x) p))%Qc,
   xsum (map (fun x => let d := (- (1 + 1) * x + (1 + 1) * pl)%Qc in xmul (Fin (d * d)%Qc) (var x)) (removelast p))).

(** Regression case (criteria.py:289-294).  With the entropy three classes do not broadcast
    (see [get_entropy]). *)
Definition regr_impurity (m : measure) (a : pile) (pop : option nat) : res (Qc * xn) :=
  match m with
  | MSE | MAuto => do r <- get_mse a pop; Ok (fst r, Fin (snd r))
  | GINI => Ok (gini_of_pile a pop)
  | ENTROPY => Err ValueError
  | MOther => Err UnboundLocalError
  end.

(** int(left_sum * pop_size / n), criteria.py:277-278 (exact, Python rounds the quotient). *)
Definition side_size (pop : option nat) (k n : nat) : option nat :=
  match pop with None => None | Some s => Some (k * s / n) end.

(** One side of one edge: size, impurity and variance, weighted, criteria.py:268-303. *)
Definition weigh (k n : nat) (iv : Qc * xn) : Qc * xn :=
  let w := (Nq k / Nq n)%Qc in
  ((w * fst iv)%Qc, xmul (Fin (w * w)%Qc) (snd iv)).

(** get_impurity_reductions with ret_vars=True, criteria.py:171-324, non-vectorised path.
    Returns the reductions and the variances for the given bin indices. *)
Definition get_impurity_reductions (M : math) (m : measure) (h : hist) (bins : list nat)
  (pop : option nat) : res (list Qc * list xn) :=
  do _ <- guard (length bins <=? h_nb h) AssertionError;
  if h_class h then
    do l0 <- nth_res (h_left h) 0;
    do r0 <- nth_res (h_right h) 0;
    let n := sum_nat l0 + sum_nat r0 in
    do sides <- mapM (fun b =>
        do l <- nth_res (h_left h) b;
        do r <- nth_res (h_right h) b;
        let ls := sum_nat l in
        let rs := sum_nat r in
        do _ <- guard (negb (n =? 0)) ZeroDivisionError;
        do il <- class_impurity M m l (side_size pop ls n) ls;
        do ir <- class_impurity M m r (side_size pop rs n) rs;
        Ok (weigh ls n il, weigh rs n ir, ls + rs)) bins;
    match rev sides with
    | [] => Err UnboundLocalError
    | (_, lastn) :: _ =>
        let cur := map (fun ab => fst ab + snd ab) (combine l0 r0) in
        do c <- class_impurity M m cur pop lastn;
        Ok (map (fun s => let '(a, b, _) := s in (fst a + fst b - fst c)%Qc) sides,
            map (fun s => let '(a, b, _) := s in xadd (xadd (snd a) (snd b)) (snd c)) sides)
    end
  else
    do l0 <- nth_res (h_lpile h) 0;
    do r0 <- nth_res (h_rpile h) 0;
    let n := p_n l0 + p_n r0 in
    do sides <- mapM (fun b =>
        do l <- nth_res (h_lpile h) b;
        do r <- nth_res (h_rpile h) b;
        let ls := p_n l in
        let rs := p_n r in
        do _ <- guard (negb (n =? 0)) ZeroDivisionError;
        do il <- regr_impurity m l (side_size pop ls n);
        do ir <- regr_impurity m r (side_size pop rs n);
        Ok (weigh ls n il, weigh rs n ir)) bins;
    do c <- regr_impurity m (h_cpile h) pop;
    Ok (map (fun s => (fst (fst s) + fst (snd s) - fst c)%Qc) sides,
        map (fun s => xadd (xadd (snd (fst s)) (snd (snd s))) (snd c)) sides).

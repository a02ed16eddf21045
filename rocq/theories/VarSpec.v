(** Specification vocabulary for the sampling variances that accompany the impurities: what
    statistics says about a sample of labels, possibly drawn without replacement from a
    population of a given size.  Nothing here mentions counts, piles or histograms. *)
From Coq Require Import List Arith Bool ZArith QArith Qcanon Lia.
From Verif Require Import Spec.
Import ListNotations.
Local Open Scope nat_scope.

(** The finite population correction (N - n) / (N - 1). *)
Definition correction (pop : option nat) (n : nat) : Qc :=
  match pop with None => 1%Qc | Some N => ((rat N - rat n) / (rat N - 1))%Qc end.

(** The large-sample variance of a statistic of the class frequencies: the variance of its
    influence on the rows of the sample, over the number of rows, corrected.  A row of class c
    moves the Gini impurity by -2 p_c, and the entropy by - log p_c, up to a constant. *)
Definition influence_variance (g : Qc -> Qc) (ls : list Qc) (pop : option nat) : Qc :=
  (variance (map g ls) / rat (length ls) * correction pop (length ls))%Qc.
Definition gini_variance (ls : list Qc) (pop : option nat) : Qc :=
  influence_variance (fun y => - (rat 2 * fraction y ls))%Qc ls pop.
Definition entropy_variance (log : Qc -> Qc) (ls : list Qc) (pop : option nat) : Qc :=
  influence_variance (fun y => - log (fraction y ls))%Qc ls pop.

(** The variance the classes would give one by one, if their frequencies were independent and
    the last class took up the slack. *)
Definition separate_variance (classes ls : list Qc) (pop : option nat) : Qc :=
  (total (map (fun c => let p := fraction c ls in let d := (rat 2 * fraction (last classes 0%Qc) ls - rat 2 * p)%Qc in
                        d * d * (p * (1 - p) / rat (length ls)))%Qc (removelast classes)) * correction pop (length ls))%Qc.

(** The unbiased estimate of the variance of the population from a sample (of a population
    with variance sum / N), and the variance of that estimate when the fourth central moment
    is three times the squared variance, as for a normal distribution. *)
Definition spread_estimate (ls : list Qc) (pop : option nat) : Qc :=
  let n := rat (length ls) in
  match pop with
  | None => (variance ls * n / (n - 1))%Qc
  | Some N => (variance ls * n / (n - 1) * ((rat N - 1) / rat N))%Qc
  end.
Definition spread_variance (ls : list Qc) (pop : option nat) : Qc :=
  let n := rat (length ls) in
  let s := spread_estimate ls pop in
  match pop with
  | None => (rat 2 * (s * s) / (n - 1))%Qc
  | Some N => let N := rat N in
      (rat 2 * (s * s) * (N * (N - n) * (n * (N * N - rat 3 * N + rat 3) - rat 3 * (N - 1)))
       / (n * (n - 1) * ((N - 1) * (N - 1)) * (N - rat 2) * (N - rat 3)))%Qc
  end.

(** The population of one side of a split, in proportion to its rows. *)
Definition side_population (pop : option nat) (k n : nat) : option nat :=
  match pop with None => None | Some s => Some (k * s / n) end.

(** The variance of a weighted sum of two sides minus the whole, taken as independent. *)
Definition change_variance (V : list Qc -> option nat -> Qc) (T : table) (f : nat) (v : Qc) (pop : option nat) : Qc :=
  let n := length T in
  let L := left_part f v T in
  let R := right_part f v T in
  let wl := (rat (length L) / rat n)%Qc in
  let wr := (rat (length R) / rat n)%Qc in
  (wl * wl * V (labels_of L) (side_population pop (length L) n) + wr * wr * V (labels_of R) (side_population pop (length R) n)
   + V (labels_of T) pop)%Qc.

(** A population for which the correction is defined, also on both sides of a split. *)
Definition fit_pop (pop : option nat) (n : nat) : Prop := match pop with None => True | Some N => 2 <= N end.
Definition populated (pop : option nat) (T : table) (f : nat) (e : Qc) : Prop :=
  match pop with None => True | Some N => 2 <= N /\ 2 <= length (left_part f e T) * N / length T /\ 2 <= length (right_part f e T) * N / length T end.

(** Specification of a split search, in terms of the data only: which thresholds are
    candidates, and what it means for an answer to be right.  Uses none of the solver's
    helpers; from the model it takes only the names of the options and of the answers. *)
From Coq Require Import List Arith Bool ZArith QArith Qcanon Lia Sorted.
From Verif Require Import Base Num Rng Histogram Utils Criteria Solvers Spec.
Import ListNotations.
Local Open Scope nat_scope.

Definition least (l : list Qc) (a : Qc) : Prop := In a l /\ forall x, In x l -> (a <= x)%Qc.
Definition greatest (l : list Qc) (a : Qc) : Prop := In a l /\ forall x, In x l -> (x <= a)%Qc.
Definition feature_values (data : list (list Qc)) (f : nat) : list Qc := map (fun r => nth f r 0%Qc) data.

(** The range of a feature: that of the data, or the one supplied by the caller. *)
Definition range_of (mm : option (list Qc * list Qc)) (data : list (list Qc)) (f : nat) (lo hi : Qc) : Prop :=
  match mm with
  | None => least (feature_values data f) lo /\ greatest (feature_values data f) hi
  | Some (mn, mx) => nth_error mn f = Some lo /\ nth_error mx f = Some hi
  end.

(** [E] is the list of candidate thresholds of feature f: with LINEAR bins, B points evenly
    spaced over the range (none if the range is a single point); with IDENTITY bins, the
    values of the feature in increasing order; with RANDOM bins, some B values in the range. *)
Definition candidates (bt : bintype) (B : nat) (mm : option (list Qc * list Qc)) (data : list (list Qc))
  (f : nat) (E : list Qc) : Prop :=
  match bt with
  | LINEAR => exists lo hi, range_of mm data f lo hi /\
      ((lo = hi /\ E = []) \/
       (lo <> hi /\ E = map (fun b => lo + (hi - lo) * (rat b / rat (B - 1)))%Qc (seq 0 B)))
  | IDENTITY => StronglySorted Qclt E /\ (forall x, In x E <-> In x (feature_values data f))
  | RANDOM => exists lo hi, least (feature_values data f) lo /\ greatest (feature_values data f) hi /\
      length E = B /\ StronglySorted Qcle E /\ (forall x, In x E -> (lo <= x)%Qc /\ (x <= hi)%Qc)
  | _ => False
  end.

(** Earlier in the order (feature, position). *)
Definition earlier_or_same (f b f' b' : nat) : Prop := f < f' \/ (f = f' /\ b <= b').

(** The answer [out] is right for the impurity change [red], the threshold [mir] and the
    candidates [E f] of the features f < W. *)
Definition right_answer (red : nat -> Qc -> Qc) (mir : Qc) (W : nat) (E : nat -> list Qc) (out : sres) : Prop :=
  match out with
  | Found f v r q => f < W /\ exists b, nth_error (E f) b = Some v /\
      r = Fin (red f v) /\ (red f v < mir)%Qc /\
      (forall f' b' v', f' < W -> nth_error (E f') b' = Some v' -> (red f v <= red f' v')%Qc /\
         (red f' v' = red f v -> earlier_or_same f b f' b'))
  | NoSplit q => forall f' v', f' < W -> In v' (E f') -> (mir <= red f' v')%Qc
  end.

(** Features with at least one candidate. *)
Definition busy_features (W : nat) (E : nat -> list Qc) : list nat :=
  filter (fun f => match E f with [] => false | _ => true end) (seq 0 W).

(** Well-formed input of the exact solver: a non-empty rectangular table with one label per
    row, a bin type other than DISCRETE and the automatic choice, at least two bins for
    LINEAR, usable caller-supplied ranges, an impurity measure that matches the task. *)
Record solvable (c : scfg) (data : list (list Qc)) (labels : list Qc) (W : nat) : Prop := {
  sv_rect : rectangular W data;
  sv_rows : data <> [];
  sv_labels : length labels = length data;
  sv_bins : match s_bin c with LINEAR => 2 <= s_nb c | IDENTITY => True | RANDOM => 1 <= s_nb c | _ => False end;
  sv_range : match s_minmax c with
             | None => True
             | Some (mn, mx) => W <= length mn /\ W <= length mx /\
                 forall f a b, nth_error mn f = Some a -> nth_error mx f = Some b -> (a <= b)%Qc
             end;
  sv_discrete : match s_dd c with
                | None => True
                | Some d => forall f, f < W -> exists v, dd_get d f = Ok v
                end;
  sv_measure : if s_class c
               then s_measure c = GINI \/ s_measure c = MAuto \/
                    (s_measure c = ENTROPY /\ length (nodup Qc_eq_dec labels) <= 2)
               else s_measure c = MSE \/ s_measure c = MAuto;
}.

(** The impurity of the configured measure. *)
Definition impurity (M : math) (c : scfg) : list Qc -> Qc :=
  if s_class c then match s_measure c with ENTROPY => entropy (m_log M) | _ => gini end
  else match s_measure c with GINI => lump | _ => variance end.

Definition nbins (c : scfg) (data : list (list Qc)) : nat :=
  match s_bin c with IDENTITY => length data | _ => s_nb c end.

(** How many (feature, threshold) candidates there are in all. *)
Definition arm_count (W : nat) (E : nat -> list Qc) : nat := list_sum (map (fun f => length (E f)) (seq 0 W)).

(** The rows and labels at the positions I. *)
Definition picked (data : list (list Qc)) (labels : list Qc) (I : list nat) : table :=
  map (fun i => (nth i data [], nth i labels 0%Qc)) I.
(** I is a non-empty list of row numbers. *)
Definition some_rows (data : list (list Qc)) (I : list nat) : Prop :=
  I <> [] /\ forall i, In i I -> i < length data.

(** A reported reduction is below the threshold. *)
Definition below (r : xn) (mir : Qc) : Prop := r = NInf \/ exists x, r = Fin x /\ (x < mir)%Qc.

(** The answer is a best one among the candidates; which of several equally good
    candidates is chosen is left open. *)
Definition best_answer (red : nat -> Qc -> Qc) (mir : Qc) (W : nat) (E : nat -> list Qc) (out : sres) : Prop :=
  match out with
  | Found f v r q => f < W /\ In v (E f) /\ r = Fin (red f v) /\ (red f v < mir)%Qc /\
      forall f' v', f' < W -> In v' (E f') -> (red f v <= red f' v')%Qc
  | NoSplit q => forall f' v', f' < W -> In v' (E f') -> (mir <= red f' v')%Qc
  end.

(** Two answers of the same quality at the same cost. *)
Definition same_quality (o1 o2 : sres) : Prop :=
  match o1, o2 with
  | Found _ _ r1 q1, Found _ _ r2 q2 => r1 = r2 /\ q1 = q2
  | NoSplit q1, NoSplit q2 => q1 = q2
  | _, _ => False
  end.

(** The same process with other contents of freshly allocated memory. *)
Definition with_memory (e : env) (m : nat -> junk) : env :=
  {| e_gen := e_gen e; e_np := e_np e; e_py := e_py e; e_mem := m; e_calls := e_calls e |}.

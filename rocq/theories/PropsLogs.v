(** Properties C189 and C190: the housing data and the log of the sampling experiment. *)
From Coq Require Import List Arith ZArith QArith Qcanon Permutation.
From Verif Require Import Base Num Rng Spec Heart HeartWitness Logs LogsSpec LogsThms LogsWitness.
Import ListNotations.
Local Open Scope nat_scope.

Theorem C189_housing : forall cut g data targets, length data = length targets ->
  exists trX trY teX teY, load_housing cut g data targets = Ok (trX, trY, teX, teY) /\
    length trX = length trY /\ length teX = length teY /\ length trX = Nat.min cut (length data) /\
    Permutation (combine trX trY ++ combine teX teY) (combine data targets).
Proof. exact housing_ok. Qed.
Print Assumptions C189_housing.

Example C189_case : length rows10 = length marks10 /\ exists trX trY teX teY, load_housing 7 [5; 3; 8; 1] rows10 marks10 = Ok (trX, trY, teX, teY) /\ length trX = 7 /\ length teX = 3 /\ map (map this) trX <> map (map this) (firstn 7 rows10).
Proof. exact housing10. Qed.

Theorem C190_averages : forall rows cols log blocks, 0 < cols -> written log blocks -> length blocks <= rows -> (forall b, In b blocks -> length (fst b) <= cols) ->
  exists table means, analyze_log rows cols log = Ok (table, map snd blocks, means) /\
    table = map (fun b => padded cols (fst b)) blocks ++ repeat (repeat 0%Z cols) (rows - length blocks) /\
    length means = rows /\ forall i b, nth_error blocks i = Some b -> nth_error means i = Some (Fin (average cols (fst b))).
Proof. exact analyze_ok. Qed.
Print Assumptions C190_averages.

Theorem C190_mean : forall cols l, 0 < cols -> 0 < length l ->
  (average cols l = average (length l) l <-> length l = cols \/ total (map (fun z => Q2Qc (inject_Z z)) l) = 0%Qc).
Proof. exact average_mean. Qed.
Print Assumptions C190_mean.

Theorem C190_overflow : forall rows cols log blocks cs n, written log (blocks ++ [(cs, n)]) -> length blocks < rows -> (forall b, In b blocks -> length (fst b) <= cols) ->
  cols < length cs -> analyze_log rows cols log = Err IndexError.
Proof. exact analyze_overflow. Qed.
Print Assumptions C190_overflow.

(** A size with missing trials: the average printed is not the mean of its counts. *)
Theorem C190_short_refuted : exists rows cols log blocks table means b v, written log blocks /\ length blocks <= rows /\ (forall b, In b blocks -> length (fst b) <= cols) /\
  analyze_log rows cols log = Ok (table, map snd blocks, means) /\ nth_error blocks 0 = Some b /\ nth_error means 0 = Some (Fin v) /\ v <> average (length (fst b)) (fst b).
Proof. exact short_log. Qed.
Print Assumptions C190_short_refuted.

Example C190_case : written log2 blocks2 /\ length blocks2 <= 3 /\ (forall b, In b blocks2 -> length (fst b) <= 2) /\
  check3 (analyze_log 3 2 log2) [[4; 6]; [5; 0]; [0; 0]]%Z [100; 200]%Z [5; 5 # 2; 0]%Q = true /\
  analyze_log 3 1 log2 = Err IndexError.
Proof. exact log2_case. Qed.

(** Properties C182 to C184: the heart disease experiment. *)
From Coq Require Import List Arith ZArith QArith Qcanon Permutation.
From Verif Require Import Base Num Rng Spec Heart HeartSpec HeartThms HeartWitness.
Import ListNotations.
Local Open Scope nat_scope.

Theorem C182_preprocess_partial : forall race df n lbl lv rv,
  frame_ok df n -> 0 < n -> In (race, rv) df -> nth_error df 0 = Some (lbl, lv) -> lbl <> race ->
  exists out w, preprocess race df = Ok (out ++ [(lbl, w)]) /\ coded lv w /\ same_sense lv w /\ NoDup (map fst (out ++ [(lbl, w)])) /\
    (forall c v, In (c, v) df -> c <> race -> exists w', In (c, w') (out ++ [(lbl, w)]) /\ coded v w' /\ same_sense v w') /\
    (forall u, In u rv -> exists w', In (Dummy u, w') (out ++ [(lbl, w)]) /\ indicator u rv w') /\
    (forall c w', In (c, w') (out ++ [(lbl, w)]) -> c <> race /\ In c (map fst df) \/ exists u, c = Dummy u /\ In u rv).
Proof. exact preprocess_ok. Qed.
Print Assumptions C182_preprocess_partial.

Theorem C182_absent : forall race df, df <> [] -> ~ In race (map fst df) -> preprocess race df = Err ValueError.
Proof. exact preprocess_absent. Qed.
Print Assumptions C182_absent.

(** The statement that numerical columns pass through unchanged is false. *)
Theorem C182_numbers_refuted : exists df n c v out, frame_ok df n /\ c <> Named 1 /\ In (c, v) df /\ preprocess (Named 1) df = Ok out /\ ~ In (c, v) out.
Proof. exact heart3_numbers. Qed.
Print Assumptions C182_numbers_refuted.

Example C182_case : frame_ok heart3 3 /\ exists out, preprocess (Named 1) heart3 = Ok out /\
  map (fun cv => shown_name (fst cv)) out = [inl 3%Z; inl 2%Z; inr 1%Q; inr 2%Q; inl 0%Z] /\
  map (fun cv => map this (snd cv)) out = [[2; 0; 1]; [0; 1; 0]; [0; 1; 0]; [1; 0; 1]; [1; 0; 0]]%Q.
Proof. exact (conj heart3_ok heart3_case). Qed.

Theorem C183_split : forall tts X Y r0 r1 r2 subset seed g p,
  splits tts -> split_data tts X Y r0 r1 r2 subset seed g = Ok p ->
  exists Xs Ys, length Xs = length Ys /\
    match subset with
    | None => Xs = X /\ Ys = Y
    | Some k => exists is, NoDup is /\ length is = k /\ (forall i, In i is -> i < length Y) /\ map (nth_error (combine X Y)) is = map Some (combine Xs Ys)
    end /\
    aligned (pa_train p) /\ aligned (pa_val p) /\ aligned (pa_test p) /\
    Permutation (paired (pa_train p) ++ paired (pa_val p) ++ paired (pa_test p)) (combine Xs Ys) /\
    ((0 <= r0)%Qc -> (0 <= r1)%Qc -> (0 <= r2)%Qc ->
      let n := rat (length Ys) in let s := (r0 + r1 + r2)%Qc in
      let te := rat (length (snd (pa_test p))) in let va := rat (length (snd (pa_val p))) in
      (n * (r2 / s) <= te)%Qc /\ (te < n * (r2 / s) + 1)%Qc /\ (n * (r1 / s) - 1 < va)%Qc /\ (va < n * (r1 / s) + 1)%Qc).
Proof. exact split_parts. Qed.
Print Assumptions C183_split.

Example C183_case : splits tail_split /\
  exists p, split_data tail_split rows10 marks10 (Nq 6) (Nq 2) (Nq 2) (Some 8) 1 [3; 1; 4; 1; 5; 9; 2; 6] = Ok p /\
    length (snd (pa_train p)) = 4 /\ length (snd (pa_val p)) = 2 /\ length (snd (pa_test p)) = 2.
Proof. exact (conj tail_split_splits split10). Qed.

(** The statement that the flag is True exactly when the intervals meet is false: the flag is
    never True when they do. *)
Theorem C184_verdict_partial : forall z m1 s1 m2 s2, (0 <= z)%Qc -> (0 <= s1)%Qc -> (0 <= s2)%Qc -> heart_overlap z m1 s1 m2 s2 = true ->
  ~ meet (heart_interval z m1 s1) (heart_interval z m2 s2) /\ (snd (heart_interval z m2 s2) < fst (heart_interval z m1 s1))%Qc.
Proof. exact overlap_true. Qed.
Print Assumptions C184_verdict_partial.

Theorem C184_verdict_refuted : exists z m1 s1 m2 s2, (0 < z)%Qc /\ (0 < s1)%Qc /\ (0 < s2)%Qc /\
  meet (heart_interval z m1 s1) (heart_interval z m2 s2) /\ heart_overlap z m1 s1 m2 s2 = false.
Proof. exact verdict_wrong. Qed.
Print Assumptions C184_verdict_refuted.

Example C184_case : heart_overlap 1%Qc (Nq 10) 1%Qc (Nq 1) 1%Qc = true /\ heart_overlap 1%Qc (Nq 1) 1%Qc (Nq 10) 1%Qc = false /\
  ~ meet (heart_interval 1%Qc (Nq 1) 1%Qc) (heart_interval 1%Qc (Nq 10) 1%Qc).
Proof. exact verdict_far. Qed.

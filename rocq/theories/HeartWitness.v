(** Concrete cases for the claims about the heart experiment. *)
From Coq Require Import List Arith Bool ZArith QArith Qcanon Lia Permutation.
From Verif Require Import Base Num NumFacts ListFacts Rng Spec Heart HeartSpec HeartThms.
Import ListNotations.
Local Open Scope nat_scope.

(** Label, race, a measurement in fractions and a count. *)
Definition heart3 : frame :=
  [ (Named 0, [Nq 1; Nq 0; Nq 0]); (Named 1, [Nq 2; Nq 1; Nq 2]); (Named 2, [Q2Qc (5 # 2); Nq 10; Q2Qc (5 # 2)]); (Named 3, [Nq 7; Nq 3; Nq 5]) ].
Lemma heart3_ok : frame_ok heart3 3.
Proof.
  split; [|split].
  - cbn. repeat constructor; cbn; intuition congruence.
  - intros c v H. cbn in H. destruct H as [H|[H|[H|[H|[]]]]]; injection H as <- <-; reflexivity.
  - intros u v H. cbn in H. intuition congruence.
Qed.
Definition shown_name (c : cname) : Z + Q := match c with Named k => inl (Z.of_nat k) | Dummy v => inr (this v) end.
Lemma heart3_case : exists out, preprocess (Named 1) heart3 = Ok out /\
  map (fun cv => shown_name (fst cv)) out = [inl 3%Z; inl 2%Z; inr 1%Q; inr 2%Q; inl 0%Z] /\
  map (fun cv => map this (snd cv)) out = [[2; 0; 1]; [0; 1; 0]; [0; 1; 0]; [1; 0; 1]; [1; 0; 0]]%Q.
Proof.
  assert (V : match preprocess (Named 1) heart3 with Ok o => (map (fun cv => shown_name (fst cv)) o, map (fun cv => map this (snd cv)) o) | Err _ => ([], []) end
    = ([inl 3%Z; inl 2%Z; inr 1%Q; inr 2%Q; inl 0%Z], [[2; 0; 1]; [0; 1; 0]; [0; 1; 0]; [1; 0; 1]; [1; 0; 0]]%Q)) by (vm_compute; reflexivity).
  destruct (preprocess (Named 1) heart3) as [out|e]; [|discriminate V]. exists out. injection V as V1 V2. auto.
Qed.
(** The measurement 5/2, 10, 5/2 is replaced by its codes. *)
Lemma heart3_numbers : exists df n c v out, frame_ok df n /\ c <> Named 1 /\ In (c, v) df /\ preprocess (Named 1) df = Ok out /\ ~ In (c, v) out.
Proof.
  destruct heart3_case as [out [E [N V]]]. exists heart3, 3, (Named 2), [Q2Qc (5 # 2); Nq 10; Q2Qc (5 # 2)], out.
  split; [exact heart3_ok|]. split; [discriminate|]. split; [cbn; tauto|]. split; [exact E|].
  intros H. apply (in_map (fun cv => map this (snd cv))) in H. rewrite V in H. cbn in H.
  repeat (destruct H as [H|H]; [discriminate H|]). exact H.
Qed.

(** A splitter that keeps the order. *)
Definition tail_split : splitter_fn := fun n q _ =>
  let k := Z.to_nat (qceil (Nq n * q)%Qc) in
  if qle 0%Qc q && (k <=? n) then Ok (seq 0 (n - k), seq (n - k) k) else Err ValueError.
Lemma tail_split_splits : splits tail_split.
Proof.
  intros n q s a b H. unfold tail_split in H. destruct (qle 0%Qc q && _) eqn:E; [|discriminate]. apply andb_true_iff in E. destruct E as [E1 E2]. apply qle_spec in E1. apply Nat.leb_le in E2.
  injection H as <- <-. split; [|].
  - rewrite <- seq_app. replace (n - _ + _) with n by lia. reflexivity.
  - rewrite seq_length. change rat with Nq. assert (P : (0 <= Nq n * q)%Qc) by (pose proof (Nq_nonneg n); qnra).
    set (y := (Nq n * q)%Qc) in *.
    assert (C : (0 <= qceil y)%Z). { assert (-1 < qceil y)%Z; [|lia]. apply qceil_lt. eapply Qclt_le_trans; [|exact P]. reflexivity. }
    unfold Nq. rewrite Z2Nat.id by exact C. split; [apply qceil_le; lia|].
    assert (L : (Zq (qceil y - 1) < y)%Qc) by (apply qceil_lt; lia). rewrite Zq_minus, Zq_1 in L. qlra.
Qed.
Definition rows10 : list (list Qc) := map (fun i => [Nq i; Nq (i * i)]) (seq 0 10).
Definition marks10 : list Qc := map (fun i => Nq (i mod 2)) (seq 0 10).
Lemma split10 : exists p, split_data tail_split rows10 marks10 (Nq 6) (Nq 2) (Nq 2) (Some 8) 1 [3; 1; 4; 1; 5; 9; 2; 6] = Ok p /\
  length (snd (pa_train p)) = 4 /\ length (snd (pa_val p)) = 2 /\ length (snd (pa_test p)) = 2.
Proof.
  assert (V : match split_data tail_split rows10 marks10 (Nq 6) (Nq 2) (Nq 2) (Some 8) 1 [3; 1; 4; 1; 5; 9; 2; 6] with
    | Ok p => (length (snd (pa_train p)), length (snd (pa_val p)), length (snd (pa_test p))) | Err _ => (0, 0, 0) end = (4, 2, 2)) by (vm_compute; reflexivity).
  destruct (split_data _ _ _ _ _ _ _ _ _) as [p|e]; [|discriminate V]. exists p. injection V as V1 V2 V3. auto.
Qed.

(** Equal forests: the intervals are the same, the flag is False.  Far apart: True one way
    round, False the other, and the intervals never meet. *)
Lemma verdict_wrong : exists z m1 s1 m2 s2, (0 < z)%Qc /\ (0 < s1)%Qc /\ (0 < s2)%Qc /\
  meet (heart_interval z m1 s1) (heart_interval z m2 s2) /\ heart_overlap z m1 s1 m2 s2 = false.
Proof.
  exists 1%Qc, 1%Qc, 1%Qc, 1%Qc, 1%Qc. split; [reflexivity|]. split; [reflexivity|]. split; [reflexivity|]. split; [|vm_compute; reflexivity].
  exists 1%Qc. cbn. split; split; qlra.
Qed.
Lemma verdict_far : heart_overlap 1%Qc (Nq 10) 1%Qc (Nq 1) 1%Qc = true /\ heart_overlap 1%Qc (Nq 1) 1%Qc (Nq 10) 1%Qc = false /\
  ~ meet (heart_interval 1%Qc (Nq 1) 1%Qc) (heart_interval 1%Qc (Nq 10) 1%Qc).
Proof.
  split; [vm_compute; reflexivity|]. split; [vm_compute; reflexivity|]. intros [x [[A B] [C D]]]. cbn in B, C.
  assert (F : (Nq 1 + 1 * 1 < Nq 10 - 1 * 1)%Qc) by (vm_compute; reflexivity). qlra.
Qed.

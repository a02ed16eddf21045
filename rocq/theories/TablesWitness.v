(** Concrete cases for the claims about the tables and the scaling plot. *)
From Coq Require Import List Arith Bool ZArith QArith Qcanon Lia.
From Verif Require Import Base Num Rng Histogram Utils Criteria Solvers Tree Forest Wrappers Compare Baseline Stability Samples Spec TreeSpec ListFacts NumFacts.
From Verif Require Import TreeWitness TrustWitness ForestWitness CompareWitness StabWitness ReportWitness BaselineWitness Tables TablesSpec TablesThms.
Import ListNotations.
Local Open Scope nat_scope.

(** The line through the normal equations is the least one. *)
Lemma normal_least a b xs ys : length xs = length ys -> (Nq (length xs) * a + b * qsum xs = qsum ys)%Qc ->
  (a * qsum xs + b * qsum (map (fun x => x * x)%Qc xs) = qsum (map (fun p => fst p * snd p)%Qc (combine xs ys)))%Qc -> least_line a b xs ys.
Proof.
  intros L N1 N2 a' b'. rewrite (misfit_poly a b xs ys L), (misfit_poly a' b' xs ys L). cbv zeta. rewrite <- N1, <- N2.
  assert (P : forall c d l, (0 <= Nq (length l) * c * c + c * d * qsum l + c * d * qsum l + d * d * qsum (map (fun x => x * x) l))%Qc).
  { intros c d l. induction l as [|x l IH]; cbn [length qsum map]; [rewrite Nq_0; apply Qcle_refl || (replace (0 * c * c + c * d * 0 + c * d * 0 + d * d * 0)%Qc with 0%Qc by ring; apply Qcle_refl)|].
    rewrite Nq_S. pose proof (off_nonneg (c + d * x)%Qc 0%Qc) as O. unfold off in O.
    replace ((Nq (length l) + 1) * c * c + c * d * (x + qsum l) + c * d * (x + qsum l) + d * d * (x * x + qsum (map (fun x => x * x) l)))%Qc
      with ((Nq (length l) * c * c + c * d * qsum l + c * d * qsum l + d * d * qsum (map (fun x => x * x) l)) + (c + d * x - 0) * (c + d * x - 0))%Qc by ring.
    revert IH O. generalize (Nq (length l) * c * c + c * d * qsum l + c * d * qsum l + d * d * qsum (map (fun x => x * x) l))%Qc ((c + d * x - 0) * (c + d * x - 0))%Qc. clear. intros. qlra. }
  specialize (P (a' - a)%Qc (b' - b)%Qc xs). revert P. generalize (Nq (length xs)) (qsum xs) (qsum (map (fun x => x * x)%Qc xs)) (qsum (map (fun x => x * x)%Qc ys)). clear. intros. qlra.
Qed.
Definition sizes3 : list Qc := [Nq 1; Nq 2; Nq 3].
Definition counts3 : list Qc := [Nq 1; Nq 2; Nq 2].
Lemma least3 : least_line (Q2Qc (2 # 3)) (Q2Qc (1 # 2)) sizes3 counts3.
Proof. apply normal_least; [reflexivity| |]; apply Qc_is_canon; vm_compute; reflexivity. Qed.
Lemma plot3 : varied counts3 /\ r_squared (map (line_at (Q2Qc (2 # 3)) (Q2Qc (1 # 2))) sizes3) counts3 = Fin (Q2Qc (3 # 4)).
Proof.
  split; [exists (Nq 1), (Nq 2); split; [now left|]; split; [right; now left|discriminate]|].
  assert (K : match r_squared (map (line_at (Q2Qc (2 # 3)) (Q2Qc (1 # 2))) sizes3) counts3 with Fin q => this q | _ => 0%Q end = (3 # 4)%Q) by (vm_compute; reflexivity).
  destruct (r_squared _ _) as [q| | |] ; [|vm_compute in K; discriminate K..]. f_equal. apply Qc_is_canon. rewrite K. reflexivity.
Qed.
Lemma flat3 : least_line (Nq 5) 0%Qc sizes3 (repeat (Nq 5) 3) /\ ~ varied (repeat (Nq 5) 3).
Proof.
  split; [apply normal_least; [reflexivity| |]; apply Qc_is_canon; vm_compute; reflexivity|].
  intros [x [y [Hx [Hy D]]]]. apply D. apply repeat_spec in Hx, Hy. congruence.
Qed.

(** Rounding, with a tie. *)
Lemma round_cases : map (fun q => this (round3 q)) [Q2Qc (2 # 3); Q2Qc (1 # 2000); Q2Qc (3 # 2000); Q2Qc (-1 # 3)] = [667 # 1000; 0; 1 # 500; -333 # 1000]%Q.
Proof. vm_compute. reflexivity. Qed.

(** A run whose test labels are the opposite of the training labels. *)
Definition flipped : heap := [{| la_int := false; la_vals := Yc |}; {| la_int := false; la_vals := map (fun y => 1 - y)%Qc Yc |}].
Lemma table6_train : exists oc h e a b, compare_accuracies sk_recall Msqrt P1 CtRFC d6 1 flipped env0 = Ok (oc, h, e) /\
  accuracy_rows oc = [(false, [a]); (true, [b])] /\ fst a = Fin 1%Qc /\ st_avg (oc_their_test oc) = Fin 0%Qc /\ ~ shows (oc_their_test oc) a.
Proof.
  assert (K : check (compare_accuracies sk_recall Msqrt P1 CtRFC d6 1 flipped env0) (fun r => let oc := fst (fst r) in
    match st_avg (oc_their_train oc), st_avg (oc_their_test oc) with Fin a, Fin b => qeq a 1 && qeq b 0 | _, _ => false end) = true) by (vm_compute; reflexivity).
  take K. destruct x as [[oc h] e]. cbn [fst] in K. cbv zeta in K. exists oc, h, e, (cell_of (oc_their_train oc)), (cell_of (oc_train oc)). split; [auto|]. split; [reflexivity|].
  unfold cell_of, shows. cbn [fst snd]. destruct (st_avg (oc_their_train oc)) as [a| | |]; try discriminate K. destruct (st_avg (oc_their_test oc)) as [b| | |]; try discriminate K.
  apply andb_prop in K. destruct K as [Ka Kb]. apply qeq_spec in Ka, Kb. subst. cbn [xround].
  assert (R : round3 1%Qc = 1%Qc) by (apply Qc_is_canon; vm_compute; reflexivity). rewrite R. split; [reflexivity|]. split; [reflexivity|].
  intros [[r [E [_ C]]] _]. injection E as <-. assert (T : thousandth 0%Qc) by (exists 0%Z; apply Qc_is_canon; vm_compute; reflexivity).
  specialize (C _ T). apply (Qclt_not_le 0%Qc 1%Qc); [reflexivity|]. revert C. unfold off. intros C. qlra.
Qed.

(** Four trials: mean 2, standard error 1/2, multiplier 2. *)
Definition trials4 : list xn := map (fun n => Fin (Nq n)) [1; 1; 3; 3].
Lemma fin_pair x y v : match x, y with Fin m, Fin s => qeq m v && qlt 0%Qc s | _, _ => false end = true -> x = Fin v /\ exists s, y = Fin s /\ (0 < s)%Qc.
Proof.
  intros K. destruct x as [m| | |]; try discriminate K. destruct y as [s| | |]; try discriminate K.
  apply andb_prop in K. destruct K as [K1 K2]. apply qeq_spec in K1. apply qlt_spec in K2. subst. split; auto. exists s. auto.
Qed.
Lemma trials4_stat : st_avg (stat_of Msqrt 4 trials4) = Fin (Nq 2) /\ exists s, st_std (stat_of Msqrt 4 trials4) = Fin s /\ (0 < s)%Qc.
Proof. apply fin_pair. vm_compute. reflexivity. Qed.
(** Two sides of a comparison. *)
Definition stat2 (a b : Qc) : stat := {| st_avg := Fin a; st_std := Fin b |}.
Definition side2 : side := {| sd_train := stat2 1%Qc 0%Qc; sd_test := Some (stat2 (Q2Qc (2 # 3)) (Q2Qc (1 # 7))); sd_queries := stat2 (Nq 24) (Nq 3); sd_trees := stat2 (Nq 5) (Q2Qc (1 # 3)) |}.
Lemma side2_rows : exists r, runtime_rows side2 side2 = Ok r /\ exists r', budget_rows side2 side2 = Ok r'.
Proof. eexists. split; [reflexivity|]. eexists. reflexivity. Qed.

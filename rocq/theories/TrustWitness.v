(** A decidable form of "all intervals hold", used by the examples, and their data. *)
From Coq Require Import List Arith Bool ZArith QArith Qcanon Lia.
From Verif Require Import Base Num Rng Histogram Utils Criteria Solvers Spec SolverSpec TrustSpec NumFacts SampleFacts MabProps Samples.
Import ListNotations.
Local Open Scope nat_scope.

Definition holdsb (red : nat -> Qc -> Qc) (W : nat) (E : nat -> list Qc) (s : mstate) : bool :=
  forallb (fun f => forallb (fun bv => match ms_lcb s f (fst bv), ms_ucb s f (fst bv) with
     | Fin l, Fin u => qle l (red f (snd bv)) && qle (red f (snd bv)) u
     | _, _ => false end) (combine (seq 0 (length (E f))) (E f))) (seq 0 W).
Fixpoint all_hold (M : math) (k : mcfg) (p : mstate -> bool) (fuel : nat) (s : mstate) : bool :=
  match fuel with
  | 0 => false
  | S n => if 5 <? length (ms_cand s) then
             match mab_body M k s with
             | Ok (s', brk) => p s' && (if brk then true else all_hold M k p n s')
             | Err _ => false
             end
           else true
  end.

Lemma nth_seq_combine {A} (l : list A) : forall k b v, nth_error l b = Some v -> In (k + b, v) (combine (seq k (length l)) l).
Proof.
  induction l as [|a l IH]; intros k b v H; [destruct b; discriminate|]. destruct b as [|b]; cbn in H.
  - injection H as ->. rewrite Nat.add_0_r. now left.
  - right. rewrite <- Nat.add_succ_comm. now apply IH.
Qed.
Lemma holdsb_sound red W E s : holdsb red W E s = true -> intervals_hold red W E s.
Proof.
  intros H f b v Hf N. unfold holdsb in H. rewrite forallb_forall in H. specialize (H f). rewrite in_seq in H. specialize (H ltac:(lia)).
  rewrite forallb_forall in H. specialize (H _ (nth_seq_combine _ 0 _ _ N)). cbn [fst snd plus] in H.
  destruct (ms_lcb s f b) as [l| | |]; try discriminate. destruct (ms_ucb s f b) as [u| | |]; try discriminate.
  apply andb_true_iff in H. destruct H as [H1 H2]. apply qle_spec in H1. apply qle_spec in H2. exists l, u. auto.
Qed.
Lemma all_hold_sound M k p (P : mstate -> Prop) : (forall s, p s = true -> P s) ->
  forall s s', visited M k s s' -> forall fuel, all_hold M k p fuel s = true -> P s'.
Proof.
  intros PP s s' V. induction V as [s s' stop L B|s s1 s' L B V IH]; intros [|n] H; try discriminate; cbn [all_hold] in H;
    rewrite (proj2 (Nat.ltb_lt _ _) L), B in H; apply andb_true_iff in H; destruct H as [H1 H2]; auto.
  now apply (IH n).
Qed.

Definition withinb (d : Qc) (red : nat -> Qc -> Qc) (E : nat -> list Qc) (s : mstate) : bool :=
  forallb (fun fb => match nth_error (E (fst fb)) (snd fb), ms_est s (fst fb) (snd fb) with
     | Some v, Fin x => qle (red (fst fb) v - d)%Qc x && qle x (red (fst fb) v + d)%Qc
     | _, _ => false end) (ms_cand s).
Lemma withinb_sound d red E s : withinb d red E s = true -> estimates_within d red E s.
Proof.
  intros H f b v I N. unfold withinb in H. rewrite forallb_forall in H. specialize (H _ I). cbn [fst snd] in H. rewrite N in H.
  destruct (ms_est s f b) as [x| | |]; try discriminate.
  apply andb_true_iff in H. destruct H as [H1 H2]. apply qle_spec in H1. apply qle_spec in H2. exists x. auto.
Qed.
Lemma check_ok {A} (r : res A) (p : A -> bool) : check r p = true -> forall a, r = Ok a -> p a = true.
Proof. intros H a ->. exact H. Qed.
Lemma check_run {A} (r : res A) (p : A -> bool) : check r p = true -> exists a, r = Ok a /\ p a = true.
Proof. destruct r as [a|]; cbn; [eauto|discriminate]. Qed.

(** A square root rounded down to a multiple of 1/1000. *)
Definition Msqrt : math := {| m_sqrt := fun x => let q := this x in
   Q2Qc (Z.sqrt (Qnum q * Z.pos (Qden q) * 1000000) # (Qden q * 1000)); m_log := fun _ => 0%Qc |}.

(** Twenty rows in which a sample of twelve prefers the second feature although the first one
    separates the labels better. *)
Definition cfg_mse3 : scfg := {| s_class := false; s_measure := MSE; s_bin := LINEAR; s_nb := 3; s_minmax := None; s_dd := None |}.
Definition X20 : list (list Qc) := map (fun i => [z (if i =? 0 then 2 else if i <? 10 then 0 else 2); z (if i <? 10 then 0 else if i <? 18 then 2 else 0)]) (seq 0 20).
Definition Y20 : list Qc := map (fun i => z (if i <? 10 then 0 else 10)) (seq 0 20).
Definition draws (k : nat) : tape := map (fun i => (i * i * k + 7 * i + k * 3) mod 101) (seq 0 60).
Definition env20 : env := {| e_gen := draws 11; e_np := []; e_py := [0]; e_mem := fun _ => junk0; e_calls := 0 |}.
(** Twelve rows of one feature, classification with random thresholds. *)
Definition cfg_gini6 : scfg := {| s_class := true; s_measure := GINI; s_bin := RANDOM; s_nb := 6; s_minmax := None; s_dd := None |}.
Definition X12 : list (list Qc) := map (fun i => [z (if i <? 4 then 0 else if i <? 8 then 1 else 2)]) (seq 0 12).
Definition Y12 : list Qc := map z [0;0;0;0;1;1;0;1;1;1;1;1]%Z.
Definition env12 : env := {| e_gen := draws 1; e_np := [1;4;5;1;1;3;5;2;0;9;4;2]; e_py := [0]; e_mem := fun _ => junk0; e_calls := 0 |}.

(** The thresholds the search draws. *)
Definition drawn (c : scfg) (data : list (list Qc)) (labels : list Qc) (e0 : env) : mhstate :=
  match make_histograms (s_class c) data labels (s_minmax c) (s_dd c) (s_bin c) (s_nb c) (e_np e0) with
  | Ok mh => mh
  | Err _ => {| mh_nb := 0; mh_np := []; mh_hists := []; mh_not := []; mh_cons := [] |}
  end.
Lemma drawn_ok c data labels e0 :
  check (make_histograms (s_class c) data labels (s_minmax c) (s_dd c) (s_bin c) (s_nb c) (e_np e0)) (fun _ => true) = true ->
  make_histograms (s_class c) data labels (s_minmax c) (s_dd c) (s_bin c) (s_nb c) (e_np e0) = Ok (drawn c data labels e0).
Proof. unfold drawn. destruct (make_histograms _ _ _ _ _ _ _ _); [reflexivity|discriminate]. Qed.

(** The runs of the examples, decided by computation. *)
Definition worse20 (oe : sres * env) : bool :=
  match fst oe with
  | Found 1 v _ _ => qlt (change Msqrt cfg_mse3 X20 Y20 0 0) (change Msqrt cfg_mse3 X20 Y20 1 v)
  | _ => false
  end.
Lemma worse20_spec o e1 : worse20 (o, e1) = true ->
  exists v r q, o = Found 1 v r q /\ (change Msqrt cfg_mse3 X20 Y20 0 0 < change Msqrt cfg_mse3 X20 Y20 1 v)%Qc.
Proof.
  unfold worse20. cbn [fst]. generalize (change Msqrt cfg_mse3 X20 Y20). intros ch.
  destruct o as [[|[|f]] v r q|q]; try discriminate. intros B. exists v, r, q. split; auto. now apply qlt_spec.
Qed.
Lemma run20 : check (solve_mab Msqrt cfg_mse3 0 false None 12 X20 Y20 0 env20) worse20 = true.
Proof. vm_compute. reflexivity. Qed.
Lemma first20 : In 0%Qc (thresholds (drawn cfg_mse3 X20 Y20 env20) 0).
Proof. vm_compute. left. reflexivity. Qed.
Definition full12 (m : nat) (oe : sres * env) : bool := match fst oe with Found _ _ _ q => q =? m | _ => false end.
Lemma full12_spec m o e1 : full12 m (o, e1) = true -> (exists f v r q, o = Found f v r q) /\ sres_q o = m.
Proof. destruct o as [f v r q|q]; cbn; [|discriminate]. intros H. apply Nat.eqb_eq in H. split; auto. now exists f, v, r, q. Qed.

(** A run behind the report theorems of PropsReport.v. *)
From Coq Require Import List Arith Bool ZArith QArith Qcanon Lia.
From Verif Require Import Base Num Rng Histogram Utils Criteria Solvers Tree Forest Wrappers Compare Samples Spec SolverSpec TreeSpec ForestSpec WrapSpec CompareSpec ListFacts NumFacts ForestRepro TreeFacts WrapFacts WrapLife CompareThms TreeWitness TrustWitness ForestWitness.
From Verif Require Import CompareWitness StabSpec StabThms StabWitness ReportSpec ReportThms.
Import ListNotations.
Local Open Scope nat_scope.

Definition fin_of (v : option xn) : Qc := match v with Some (Fin q) => q | _ => 0%Qc end.
Definition is_fin (v : option xn) : bool := match v with Some (Fin _) => true | _ => false end.
Definition three (r : report * heap * env) : bool :=
  let l := rp_rounds (fst (fst r)) in
  forallb (fun ab => is_fin (en_test (fst ab)) && match snd ab with Some b => is_fin (en_test b) | None => false end) l && (length l =? 3) &&
  negb (qeq (mean (map (fun ab => fin_of (en_test (fst ab))) l)) (mean (map (fun ab => match snd ab with Some b => fin_of (en_test b) | None => 0%Qc end) l))) &&
  match rp_overlap (fst (fst r)) with Some b => b | None => false end.
Lemma three_spec r : three r = true -> exists os ts, length os = 3 /\ mean os <> mean ts /\ rp_overlap (fst (fst r)) = Some true /\
  map (fun ab => en_test (fst ab)) (rp_rounds (fst (fst r))) = map (fun q => Some (Fin q)) os /\ map (fun ab => option_map en_test (snd ab)) (rp_rounds (fst (fst r))) = map (fun q => Some (Some (Fin q))) ts.
Proof.
  unfold three. intros H. apply andb_prop in H. destruct H as [H H4]. apply andb_prop in H. destruct H as [H H3]. apply andb_prop in H. destruct H as [H1 H2]. rewrite forallb_forall in H1. apply Nat.eqb_eq in H2.
  exists (map (fun ab => fin_of (en_test (fst ab))) (rp_rounds (fst (fst r)))), (map (fun ab => match snd ab with Some b => fin_of (en_test b) | None => 0%Qc end) (rp_rounds (fst (fst r)))).
  split; [now rewrite map_length|]. split; [intros Q; rewrite Q in H3; rewrite (proj2 (qeq_spec _ _) eq_refl) in H3; discriminate H3|]. split; [destruct (rp_overlap _) as [[|]|]; try discriminate H4; auto|].
  rewrite !map_map. split; apply map_ext_in; intros [a b] I; specialize (H1 _ I); cbn [fst snd] in *; apply andb_prop in H1; destruct H1 as [A B].
  - destruct (en_test a) as [[| | |]|]; try discriminate A. reflexivity.
  - destruct b as [b|]; [|discriminate B]. cbn. destruct (en_test b) as [[| | |]|]; try discriminate B. reflexivity.
Qed.
Lemma three_rounds : root Mflat /\ tk_theirs task_reg = true /\ exists rp h e os ts, compare Mflat P1 task_reg 3 (twice T6) env0 = Ok (rp, h, e) /\ length os = 3 /\ mean os <> mean ts /\ rp_overlap rp = Some true /\
  map (fun ab => en_test (fst ab)) (rp_rounds rp) = map (fun q => Some (Fin q)) os /\ map (fun ab => option_map en_test (snd ab)) (rp_rounds rp) = map (fun q => Some (Some (Fin q))) ts.
Proof.
  split; [apply flat_root|]. split; [reflexivity|]. assert (K : check (compare Mflat P1 task_reg 3 (twice T6) env0) three = true) by (vm_compute; reflexivity).
  take K. apply three_spec in K. destruct x as [[rp h] e]. destruct K as (os & ts & K). exists rp, h, e, os, ts. auto.
Qed.

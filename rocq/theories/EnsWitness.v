(** Runs behind PropsEns.v. *)
From Coq Require Import List Arith Bool ZArith QArith Qcanon Lia.
From Verif Require Import Base Num Rng Histogram Utils Criteria Solvers Tree Forest Samples Spec SolverSpec TreeSpec ForestSpec EnsSpec NumFacts TreeWitness TrustWitness ForestMore ForestTotal ForestLife ForestWitness.
Import ListNotations.
Local Open Scope nat_scope.

(** The training set as a test set. *)
Definition test_of (ys : list Qc) : list (list Qc * Qc) := combine X6 ys.

Definition spread (ts : list (tcfg * tree)) (test : list (list Qc * Qc)) : Qc :=
  mean (map (fun p => variance (map (fun ct => tree_value ct (fst p)) ts)) test).
Definition is_reg (c : fcfg) (f : forest) (x : list Qc) : bool := match answer (forest_predict c f x) with Ok (FReg _) => true | _ => false end.
Definition is_class (c : fcfg) (f : forest) (x : list Qc) : bool := match answer (forest_predict c f x) with Ok (FClass _ _) => true | _ => false end.
Lemma is_reg_ok c f x : is_reg c f x = true -> exists v f', forest_predict c f x = Ok (FReg v, f').
Proof. unfold is_reg. destruct (forest_predict c f x) as [[[l a|v|v|] f']|]; cbn; try discriminate. eauto. Qed.
Lemma is_class_ok c f x : is_class c f x = true -> exists l a f', forest_predict c f x = Ok (FClass l a, f').
Proof. unfold is_class. destruct (forest_predict c f x) as [[[l a|v|v|] f']|]; cbn; try discriminate. eauto. Qed.

(** Three trees that disagree on the training points; the mean is better than the mean error. *)
Lemma ens_reg : exists f0 e0 f1 h1 e1, forest_new P1 fc_re (Some X6) (Some 0) None None (heap_of T6) env0 = Ok (f0, e0) /\
  forest_fit M0 P1 fc_re f0 (None, None) (heap_of T6) e0 = Ok (f1, h1, e1) /\ fit_data f0 (None, None) = Some X6 /\ length (f_trees f1) = 3 /\
  (forall x y, In (x, y) (test_of T6) -> exists v f', forest_predict fc_re f1 x = Ok (FReg v, f')) /\
  (0 < spread (f_trees f1) (test_of T6))%Qc.
Proof.
  assert (K : check (forest_new P1 fc_re (Some X6) (Some 0) None None (heap_of T6) env0) (fun a =>
    check (forest_fit M0 P1 fc_re (fst a) (None, None) (heap_of T6) (snd a)) (fun b =>
      (length (f_trees (fst (fst b))) =? 3) && forallb (fun p => is_reg fc_re (fst (fst b)) (fst p)) (test_of T6) && qlt 0%Qc (spread (f_trees (fst (fst b))) (test_of T6)))) = true) by (vm_compute; reflexivity).
  take K. destruct x as [f0 e0]. cbn [fst snd] in K. take K. destruct x as [[f1 h1] e1]. cbn [fst snd] in K. apply andb_prop in K. destruct K as [K K3]. apply andb_prop in K. destruct K as [K1 K2].
  exists f0, e0, f1, h1, e1. split; [assumption|]. split; [assumption|]. split.
  - injection H as <- _. reflexivity.
  - split; [now apply Nat.eqb_eq|]. split; [|now apply qlt_spec]. intros x y I. rewrite forallb_forall in K2. apply is_reg_ok. exact (K2 _ I).
Qed.

(** A test point labelled as one tree of three says: the forest says otherwise. *)
Lemma accuracy_lower : exists f0 e0 f1 h1 e1 test, forest_new P1 fc_cl (Some X6) (Some 0) None None (heap_of Y6) env0 = Ok (f0, e0) /\
  forest_fit M0 P1 fc_cl f0 (None, None) (heap_of Y6) e0 = Ok (f1, h1, e1) /\ test <> [] /\
  (forall x y, In (x, y) test -> exists l avg f', forest_predict fc_cl f1 x = Ok (FClass l avg, f')) /\
  (hits (forest_says fc_cl f1) test < mean (map (fun ct => hits (tree_says ct) test) (f_trees f1)))%Qc.
Proof.
  assert (K : check (forest_new P1 fc_cl (Some X6) (Some 0) None None (heap_of Y6) env0) (fun a =>
    check (forest_fit M0 P1 fc_cl (fst a) (None, None) (heap_of Y6) (snd a)) (fun b =>
      is_class fc_cl (fst (fst b)) [z 3; z 10] && qlt (hits (forest_says fc_cl (fst (fst b))) [([z 3; z 10], z 1)]) (mean (map (fun ct => hits (tree_says ct) [([z 3; z 10], z 1)]) (f_trees (fst (fst b))))))) = true) by (vm_compute; reflexivity).
  take K. destruct x as [f0 e0]. cbn [fst snd] in K. take K. destruct x as [[f1 h1] e1]. cbn [fst snd] in K. apply andb_prop in K. destruct K as [K1 K2].
  exists f0, e0, f1, h1, e1, [([z 3; z 10], z 1)]. split; [assumption|]. split; [assumption|]. split; [discriminate|]. split; [|now apply qlt_spec].
  intros x y [[= <- <-]|[]]. now apply is_class_ok.
Qed.

Lemma ens_class : exists f0 e0 f1 h1 e1, forest_new P1 fc_cl (Some X6) (Some 0) None None (heap_of Y6) env0 = Ok (f0, e0) /\
  forest_fit M0 P1 fc_cl f0 (None, None) (heap_of Y6) e0 = Ok (f1, h1, e1) /\ fit_data f0 (None, None) = Some X6 /\ f_ncl f0 = length (f_classes f0) /\ good_classes (f_classes f0) /\
  length (map fst (f_classes f0)) = 2 /\
  (forall x y, In (x, y) (test_of Y6) -> exists l avg f', forest_predict fc_cl f1 x = Ok (FClass l avg, f')) /\
  (brier (map fst (f_classes f0)) (forest_prob fc_cl f1) (test_of Y6) < mean (map (fun ct => brier (map fst (f_classes f0)) (tree_prob ct) (test_of Y6)) (f_trees f1)))%Qc.
Proof.
  assert (K : check (forest_new P1 fc_cl (Some X6) (Some 0) None None (heap_of Y6) env0) (fun a =>
    check (forest_fit M0 P1 fc_cl (fst a) (None, None) (heap_of Y6) (snd a)) (fun b =>
      (f_ncl (fst a) =? length (f_classes (fst a))) && (length (map fst (f_classes (fst a))) =? 2) && forallb (fun p => is_class fc_cl (fst (fst b)) (fst p)) (test_of Y6) &&
      qlt (brier (map fst (f_classes (fst a))) (forest_prob fc_cl (fst (fst b))) (test_of Y6)) (mean (map (fun ct => brier (map fst (f_classes (fst a))) (tree_prob ct) (test_of Y6)) (f_trees (fst (fst b))))))) = true) by (vm_compute; reflexivity).
  take K. destruct x as [f0 e0]. cbn [fst snd] in K. take K. destruct x as [[f1 h1] e1]. cbn [fst snd] in K. apply andb_prop in K. destruct K as [K K4]. apply andb_prop in K. destruct K as [K K3]. apply andb_prop in K. destruct K as [K1 K2].
  exists f0, e0, f1, h1, e1. split; [assumption|]. split; [assumption|]. split.
  - injection H as <- _. reflexivity.
  - split; [now apply Nat.eqb_eq|]. split.
    + destruct (new_classes P1 fc_cl (Some X6) 0 None (heap_of Y6) env0 f0 e0 eq_refl H) as (la & A & B & _). exact B.
    + split; [now apply Nat.eqb_eq|]. split; [|now apply qlt_spec]. intros x y I. rewrite forallb_forall in K3. apply is_class_ok. exact (K3 _ I).
Qed.

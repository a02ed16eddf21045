(** Runs behind PropsCopy.v. *)
From Coq Require Import List Arith Bool ZArith QArith Qcanon Lia Permutation.
From Verif Require Import Base Num Rng Histogram Utils Criteria Solvers Tree Samples Spec SolverSpec TreeSpec InvarSpec CopySpec NumFacts ListFacts DrawFacts CountFacts TreeTotal TreeMore TreeThms TreeSim TreeWitness TrustWitness InvarWitness CopyFacts CopySim.
Import ListNotations.
Local Open Scope nat_scope.

Lemma pairs_all {A B} (d1 : A) (d2 : B) x y : length x = length y -> map (fun i => (nth i x d1, nth i y d2)) (seq 0 (length y)) = combine x y.
Proof.
  intros L. apply list_ext. intros i. rewrite nth_error_map. destruct (lt_dec i (length y)) as [H|H].
  - assert (E : nth_error (seq 0 (length y)) i = Some i).
    { rewrite (nth_error_nth' _ 0) by (now rewrite seq_length). now rewrite seq_nth. } rewrite E. cbn [option_map].
    rewrite (nth_error_nth' (combine x y) (d1, d2)) by (rewrite combine_length; lia). now rewrite combine_nth.
  - rewrite (proj2 (nth_error_None (seq 0 (length y)) i)) by (rewrite seq_length; lia). rewrite (proj2 (nth_error_None (combine x y) i)); auto. rewrite combine_length. lia.
Qed.
(** Repeating the table and the labels as a whole repeats every training row. *)
Lemma repeat_repeated k a : 1 <= k -> ta_idcs a = None -> length (ta_data a) = length (ta_labels a) -> repeated k a (repeat_args k a).
Proof.
  intros K I L. constructor; cbn [repeat_args ta_data ta_labels ta_budget ta_dd ta_seed]; auto.
  - unfold train_rows. cbn [repeat_args ta_idcs ta_labels]. rewrite I. change arange with (seq 0). rewrite !pairs_all by (rewrite ?copies_length; congruence). now rewrite copies_combine.
  - apply copies_length.
  - rewrite !copies_length. congruence.
  - intros i H. unfold train_rows in H. cbn [repeat_args ta_idcs ta_labels] in H. change arange with (seq 0) in H. apply in_seq in H. lia.
  - unfold train_feats. cbn [repeat_args ta_feats ta_data]. destruct (ta_feats a); auto. do 2 f_equal. destruct k; [lia|]. destruct (ta_data a); auto. cbn. clear. induction k; auto.
Qed.

(** The table and the labels of [a], doubled d times by make_huge. *)
Definition huge_args (d : nat) (a : targs) : targs :=
  {| ta_data := fst (make_huge d (ta_data a) (ta_labels a)); ta_labels := snd (make_huge d (ta_data a) (ta_labels a));
     ta_budget := option_map (fun b => (Z.of_nat (2 ^ d) * b)%Z) (ta_budget a);
     ta_dd := ta_dd a; ta_seed := ta_seed a; ta_idcs := None; ta_feats := ta_feats a |}.
Lemma huge_repeat d a : huge_args d a = repeat_args (2 ^ d) a.
Proof. unfold huge_args, repeat_args. now rewrite make_huge_copies. Qed.
Lemma huge_tree P M c a W d e e' t : trainable c a W -> fixed_grid c -> tc_log_split c = false -> (tc_class c = true -> good_classes (tc_classes c)) -> ta_idcs a = None -> built P M c a e t ->
  exists t', built P M (repeat_cfg (2 ^ d) c) (huge_args d a) e' t' /\ tree_times (2 ^ d) t t' /\ forall x, answer (tree_predict (repeat_cfg (2 ^ d) c) t' x) = answer (tree_predict c t x).
Proof.
  intros T F L G I H. assert (K : 1 <= 2 ^ d) by (assert (2 ^ d <> 0) by (now apply Nat.pow_nonzero); lia).
  rewrite huge_repeat. eapply repeated_tree; eauto. apply repeat_repeated; auto. symmetry. apply T.
Qed.

(** ** With the same min_samples_split *)
Definition two : targs := {| ta_data := [[z 0]; [z 1]]; ta_labels := [z 0; z 1]; ta_budget := None; ta_dd := None; ta_seed := 7; ta_idcs := None; ta_feats := None |}.
Lemma two_trainable : trainable cfg_class two 1.
Proof.
  constructor; cbn; try discriminate; try reflexivity; auto.
  - intros r [<-|[<-|[]]]; reflexivity.
  - intros i [<-|[<-|[]]]; lia.
  - intros f [<-|[]]. lia.
  - intros _. split; [intros i [<-|[<-|[]]]; cbn; tauto|]. intros k i [E|[E|[]]]; injection E as _ <-; cbn; lia.
Qed.
Definition sure (c : tcfg) (x : list Qc) (t : tree) : bool := match answer (tree_predict c t x) with Ok (PClass _ ps) => existsb (fun p => qeq p 1%Qc) ps | _ => false end.
Lemma unscaled_differs : exists P M c a W e t t' x, trainable c a W /\ fixed_grid c /\ tc_log_split c = false /\ good_classes (tc_classes c) /\ ta_idcs a = None /\
  built P M c a e t /\ built P M c (huge_args 1 a) e t' /\ In x (ta_data a) /\ answer (tree_predict c t' x) <> answer (tree_predict c t x).
Proof.
  assert (K1 : check (run_with P0 M0 cfg_class two env0) (fun t => negb (sure cfg_class [z 0] t)) = true) by (vm_compute; reflexivity).
  assert (K2 : check (run_with P0 M0 cfg_class (huge_args 1 two) env0) (sure cfg_class [z 0]) = true) by (vm_compute; reflexivity).
  apply check_run in K1. destruct K1 as [t [H1 Q1]]. apply check_run in K2. destruct K2 as [t' [H2 Q2]].
  exists P0, M0, cfg_class, two, 1, env0, t, t', [z 0]. split; [apply two_trainable|]. split; [split; [reflexivity|split; [now right|exact I]]|]. split; [reflexivity|]. split.
  { split; [|split]; [repeat constructor; cbn; intuition discriminate|repeat constructor; cbn; intuition discriminate|]. intros k i [E|[E|[]]]; injection E as _ <-; cbn; lia. }
  split; [reflexivity|]. split; [now apply run_built|]. split; [now apply run_built|]. split; [cbn; auto|]. intros E. apply negb_true_iff in Q1. unfold sure in Q1, Q2. rewrite E in Q2. rewrite Q1 in Q2. discriminate.
Qed.

(** ** Examples *)
Definition plain (Y : list Qc) (b : option Z) : targs := {| ta_data := X6; ta_labels := Y; ta_budget := b; ta_dd := None; ta_seed := 7; ta_idcs := None; ta_feats := None |}.
Lemma plain_trainable b : trainable cfg_class (plain Y6 b) 2 /\ trainable cfg_reg (plain T6 b) 2 /\ trainable cfg_lin_exact (plain Y6 b) 2.
Proof.
  destruct targs_trainable as (T1 & T2 & _ & T4). split; [|split].
  - destruct T1. constructor; auto; [discriminate|intros i I; cbn in I; cbn; repeat (destruct I as [<-|I]; [lia|]); destruct I|].
    intros _. split; [intros i I; cbn in I; repeat (destruct I as [<-|I]; [cbn; tauto|]); destruct I|]. intros k i [E|[E|[]]]; injection E as _ <-; cbn; lia.
  - destruct T2. constructor; auto; [discriminate|intros i I; cbn in I; cbn; repeat (destruct I as [<-|I]; [lia|]); destruct I|discriminate].
  - destruct T4. constructor; auto; [discriminate|intros i I; cbn in I; cbn; repeat (destruct I as [<-|I]; [lia|]); destruct I|].
    intros _. split; [intros i I; cbn in I; repeat (destruct I as [<-|I]; [cbn; tauto|]); destruct I|]. intros k i [E|[E|[]]]; injection E as _ <-; cbn; lia.
Qed.

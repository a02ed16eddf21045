(** Runs behind PropsStab.v. *)
From Coq Require Import List Arith Bool ZArith QArith Qcanon Lia.
From Verif Require Import Base Num Rng Histogram Utils Criteria Solvers Tree Forest Permutation Wrappers Compare Stability Samples Spec SolverSpec TreeSpec ForestSpec PermSpec StabSpec NumFacts ListFacts StabThms TreeWitness TrustWitness ForestWitness PermFacts PermLife PermWitness.
Import ListNotations.
Local Open Scope nat_scope.

(** Six rows, three unrelated columns; one tree per forest, two forests, two columns per node. *)
Definition X9 : list (list Qc) := [[z 0; z 5; z 2]; [z 1; z 0; z 4]; [z 2; z 4; z 0]; [z 3; z 1; z 5]; [z 4; z 3; z 1]; [z 5; z 2; z 3]].
Definition stest_of (k : Z) (leaves : option nat) : stest :=
  {| tt_cfg := {| pc_data := X9; pc_labels := 0; pc_depth := DFin 2; pc_forests := 2; pc_trees := 1; pc_class := false; pc_solver := EXACT; pc_metric := JACCARD;
       pc_budget := None; pc_fsub := FSInt 2; pc_leaves := leaves; pc_eps := 0%Qc; pc_score := IImpurity |}; tt_trials := 1; tt_k := k; tt_conf := 1%Qc |}.
Definition P9 : prng := {| seed_gen := fun s => map (fun k => (k * (s mod 7 + 3) + s) mod 13) (seq 1 60); seed_np := fun s => map (fun k => (k * (s mod 5 + 2) + s) mod 11) (seq 1 20); seed_py := fun s => [s] |}.
Definition Mflat : math := {| m_sqrt := fun x => if qlt 0 x then 1%Qc else 0%Qc; m_log := fun _ => 0%Qc |}.
Lemma flat_root : root Mflat.
Proof. intros x X. cbn. destruct (qlt 0 x) eqn:Q; split; try (intros; qlra). intros Y. apply qlt_spec in Y. congruence. Qed.

Definition one_trial (v w : Qc) (r : list (xn * xn) * heap * env) : bool := match r with ([(Fin a, Fin b)], _, _) => qeq a v && qeq b w | _ => false end.
Lemma one_trial_spec v w r : one_trial v w r = true -> exists h e, r = (map (fun ab => (Fin (fst ab), Fin (snd ab))) [(v, w)], h, e).
Proof.
  unfold one_trial. destruct r as [[l h] e]. destruct l as [|[[a| | |] [b| | |]] [|]]; try discriminate. intros Q. apply andb_prop in Q. destruct Q as [Q1 Q2]. apply qeq_spec in Q1, Q2. subst. exists h, e. reflexivity.
Qed.
Lemma mean_one v : mean [v] = v. Proof. unfold mean. cbn [total length]. change (rat 1) with 1%Qc. field. discriminate. Qed.
Lemma err_one v : std_error Mflat [v] = 0%Qc.
Proof. unfold std_error, variance. rewrite mean_one. cbn [map total length]. replace (((v - v) * (v - v) + 0) / rat 1)%Qc with 0%Qc by (unfold Qcdiv; ring). cbn [m_sqrt Mflat]. change (qlt 0 0) with false. cbv iota. unfold Qcdiv. ring. Qed.

(** MAB is more stable: the test returns. *)
Lemma stab_pass : root Mflat /\ 1 <= tt_trials (stest_of 1 None) /\ (0 <= tt_conf (stest_of 1 None))%Qc /\
  exists l h e, trials argsort0 Mflat P9 (stest_of 1 None) 3 (heap_of T6) env0 = Ok (map (fun ab => (Fin (fst ab), Fin (snd ab))) l, h, e) /\
    (mean (map fst l) + tt_conf (stest_of 1 None) * std_error Mflat (map fst l) < mean (map snd l) - tt_conf (stest_of 1 None) * std_error Mflat (map snd l))%Qc.
Proof.
  split; [apply flat_root|]. split; [cbn; lia|]. split; [cbn; qlra|]. assert (K : check (trials argsort0 Mflat P9 (stest_of 1 None) 3 (heap_of T6) env0) (one_trial (frac (-1) 2) 1) = true) by (vm_compute; reflexivity).
  take K. apply one_trial_spec in K. destruct K as (h & e & ->). exists [(frac (-1) 2, 1%Qc)], h, e. split; [assumption|]. cbn [map fst snd tt_conf stest_of]. rewrite !mean_one, !err_one. apply qlt_spec. vm_compute. reflexivity.
Qed.
(** The exhaustive search is more stable, with disjoint intervals: the test says that they overlap. *)
Lemma stab_swap : exists order M P t seed h e l h' e', sorts order /\ root M /\ trials order M P t seed h e = Ok (map (fun ab => (Fin (fst ab), Fin (snd ab))) l, h', e') /\
  (mean (map snd l) + tt_conf t * std_error M (map snd l) < mean (map fst l) - tt_conf t * std_error M (map fst l))%Qc /\ stability_test order M P t seed h e = Err AssertionError.
Proof.
  exists argsort0, Mflat, P9, (stest_of 1 None), 0, (heap_of T6), env0. assert (K : check (trials argsort0 Mflat P9 (stest_of 1 None) 0 (heap_of T6) env0) (one_trial 1 (frac (-1) 2)) = true) by (vm_compute; reflexivity).
  take K. apply one_trial_spec in K. destruct K as (h & e & ->). exists [(1%Qc, frac (-1) 2)], h, e. split; [apply argsort0_sorts|]. split; [apply flat_root|]. split; [assumption|].
  split; [cbn [map fst snd tt_conf stest_of]; rewrite !mean_one, !err_one; apply qlt_spec; vm_compute; reflexivity|].
  eapply passes_only_if_better; [apply flat_root|eassumption|cbn; lia|cbn; qlra|]. cbn [map fst snd]. rewrite !mean_one. apply qle_spec. vm_compute. reflexivity.
Qed.
Definition one_mab (w : Qc) (r : list (xn * xn) * heap * env) : bool := match r with ([(_, Fin b)], _, _) => qeq b w | _ => false end.
Lemma one_mab_spec w r : one_mab w r = true -> exists v h e, r = ([(v, Fin w)], h, e).
Proof. unfold one_mab. destruct r as [[l h] e]. destruct l as [|[a [b| | |]] [|]]; try discriminate. intros Q. apply qeq_spec in Q. subst. eauto. Qed.
(** With the limit that it is not given, MAB would be less stable. *)
Lemma stab_limit : exists order M P t seed h e v w h' e' c u, sorts order /\ root M /\ pc_leaves (tt_cfg t) = Some 2 /\ trials order M P t seed h e = Ok ([(v, w)], h', e') /\
  searching (tt_cfg t) MAB (pc_leaves (tt_cfg t)) c /\ finds order M P c (nth 1 (PermSpec.draws 2 (seed_gen P seed)) 0) (tt_k t) h e u /\ xlt u w = true.
Proof.
  exists argsort0, Mflat, P9, (stest_of 2 (Some 2)), 0, (heap_of T6), env0. set (c := pc_with (tt_cfg (stest_of 2 (Some 2))) MAB (Some 2)). set (s2 := nth 1 (PermSpec.draws 2 (seed_gen P9 0)) 0).
  assert (K : check (baseline argsort0 Mflat P9 c s2 2 (heap_of T6) env0) (fun q => xlt (fst (fst q)) (Fin 1%Qc)) = true) by (vm_compute; reflexivity). take K. destruct x as [[u h1] e1]. cbn [fst] in K. rename K into KU.
  assert (K : check (trials argsort0 Mflat P9 (stest_of 2 (Some 2)) 0 (heap_of T6) env0) (one_mab 1) = true) by (vm_compute; reflexivity).
  take K. apply one_mab_spec in K. destruct K as (v & h' & e' & ->). exists v, (Fin 1%Qc), h', e', c, u. split; [apply argsort0_sorts|]. split; [apply flat_root|]. split; [reflexivity|]. split; [assumption|].
  split; [constructor; repeat split; reflexivity|]. split; [|exact KU]. match goal with H : baseline _ _ _ _ _ _ _ _ = _ |- _ => destruct (baseline_finds _ _ _ _ _ _ _ _ _ _ _ H) as [F _]; apply F; intros ?; reflexivity end.
Qed.
Lemma stab_zero : exists l h e, trials argsort0 Mflat P9 (stest_of 0 None) 3 (heap_of T6) env0 = Ok (l, h, e).
Proof.
  assert (K : check (trials argsort0 Mflat P9 (stest_of 0 None) 3 (heap_of T6) env0) (fun _ => true) = true) by (vm_compute; reflexivity). take K. destruct x as [[l h] e]. eauto.
Qed.
(** The test with one seed passes. *)
Lemma stab_budget : exists seed h e, budget_test argsort0 Mflat P9 (tt_cfg (stest_of 1 None)) seed 1 (heap_of T6) env0 = Ok (h, e).
Proof.
  assert (K : existsb (fun seed => check (budget_test argsort0 Mflat P9 (tt_cfg (stest_of 1 None)) seed 1 (heap_of T6) env0) (fun _ => true)) (seq 0 30) = true) by (vm_compute; reflexivity).
  apply existsb_exists in K. destruct K as (seed & _ & K). exists seed. take K. destruct x as [h e]. eauto.
Qed.

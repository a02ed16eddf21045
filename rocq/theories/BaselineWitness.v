(** Runs behind PropsBaseline.v. *)
From Coq Require Import List Arith Bool ZArith QArith Qcanon Lia.
From Verif Require Import Base Num Rng Histogram Utils Criteria Solvers Tree Forest Wrappers Compare Baseline Samples Spec SolverSpec TreeSpec ForestSpec WrapSpec CompareSpec StabSpec ReportSpec BaselineSpec ListFacts NumFacts ForestRepro TreeFacts.
From Verif Require Import TreeWitness TrustWitness ForestWitness CompareWitness StabWitness ReportWitness.
Import ListNotations.
Local Open Scope nat_scope.

(** A model that remembers its training rows, and one whose answers are off by the seed. *)
Fixpoint recall (X : list (list Qc)) (ys : list Qc) (x : list Qc) : Qc :=
  match X, ys with r :: X', y :: ys' => if forallb (fun ab => qeq (fst ab) (snd ab)) (combine r x) then y else recall X' ys' x | _, _ => 0%Qc end.
Definition sk_recall : sklearn := fun _ _ X ys pts => map (recall X ys) pts.
Definition sk_drift : sklearn := fun _ seed X ys pts => map (fun x => recall X ys x + Nq seed)%Qc pts.
Definition d6 := {| se_X := X6; se_y := 0; se_testX := X6; se_testy := 1 |}.

Lemma every_contest : Forall (fun cy => exists b h e, fight sk_recall Msqrt P1 (fst cy) d6 1 (twice (snd cy)) env0 = Ok (b, h, e) /\ length (f_trees (en_forest (bo_ours b))) = 5) [(CtRFC, Yc); (CtERFC, Yc); (CtRFR, T6); (CtERFR, T6); (CtGBRFR, T6)].
Proof.
  assert (K : forallb (fun cy => check (fight sk_recall Msqrt P1 (fst cy) d6 1 (twice (snd cy)) env0) (fun r => length (f_trees (en_forest (bo_ours (fst (fst r))))) =? 5)) [(CtRFC, Yc); (CtERFC, Yc); (CtRFR, T6); (CtERFR, T6); (CtGBRFR, T6)] = true) by (vm_compute; reflexivity).
  rewrite forallb_forall in K. apply Forall_forall. intros cy I. specialize (K cy I). take K. destruct x as [[b h] e]. exists b, h, e. split; auto. now apply Nat.eqb_eq.
Qed.

(** scikit-learn's boosted model against ours: a perfect learner loses. *)
Lemma perfect_learner_loses : exists sk M P d seed h e b h' e' y u v, m_sqrt M 0%Qc = 0%Qc /\ (forall ys, length ys = length (se_X d) -> sk CtGBRFR seed (se_X d) ys (se_X d) = ys) /\ se_X d = se_testX d /\ nth_error h (se_y d) = Some y /\ nth_error h (se_testy d) = Some y /\
  fight sk M P CtGBRFR d seed h e = Ok (b, h', e') /\ bo_targets b <> la_vals y /\ en_test (bo_ours b) = Some (Fin u) /\ bo_test b = Fin v /\ (z 100 * u < v)%Qc.
Proof.
  exists sk_recall, Msqrt, P1, d6, 1, (twice T6), env0.
  assert (K : check (fight sk_recall Msqrt P1 CtGBRFR d6 1 (twice T6) env0) (fun r => let b := fst (fst r) in negb (qeq (nth 0 (bo_targets b) 0%Qc) (nth 0 T6 0%Qc)) && match en_test (bo_ours b), bo_test b with Some (Fin u), Fin v => qlt (z 100 * u)%Qc v | _, _ => false end) = true) by (vm_compute; reflexivity).
  take K. destruct x as [[b h] e]. cbn [fst snd] in K. cbv zeta in K. apply andb_prop in K. destruct K as [K1 K2].
  destruct (en_test (bo_ours b)) as [[u| | |]|] eqn:EU; try discriminate K2. destruct (bo_test b) as [v| | |] eqn:EV; try discriminate K2. apply qlt_spec in K2.
  exists b, h, e, {| la_int := false; la_vals := T6 |}, u, v. split; [apply Qc_is_canon; vm_compute; reflexivity|]. split; [intros ys L; do 6 (destruct ys as [|? ys]; [discriminate L|]); destruct ys; [|discriminate L]; vm_compute; reflexivity|]. repeat (split; [reflexivity || assumption|]).
  split; [|auto]. intros Q. rewrite Q in K1. cbn [la_vals] in K1. rewrite (proj2 (qeq_spec _ _) eq_refl) in K1. discriminate K1.
Qed.

(** Three seeds: different averages that overlap. *)
Definition drift_ok (r : outcome * heap * env) : bool :=
  let l := oc_bouts (fst (fst r)) in
  forallb (fun b => is_fin (en_test (bo_ours b)) && is_fin (Some (bo_test b))) l && (length l =? 3) &&
  negb (qeq (mean (map (fun b => fin_of (en_test (bo_ours b))) l)) (mean (map (fun b => fin_of (Some (bo_test b))) l))) && oc_overlap (fst (fst r)).
Lemma drift_runs : exists oc h e os ts, compare_accuracies sk_drift Msqrt P1 CtRFR d6 3 (twice T6) env0 = Ok (oc, h, e) /\ length os = 3 /\ mean os <> mean ts /\ oc_overlap oc = true /\
  map (fun b => en_test (bo_ours b)) (oc_bouts oc) = map (fun q => Some (Fin q)) os /\ map bo_test (oc_bouts oc) = map Fin ts.
Proof.
  assert (K : check (compare_accuracies sk_drift Msqrt P1 CtRFR d6 3 (twice T6) env0) drift_ok = true) by (vm_compute; reflexivity).
  take K. destruct x as [[oc h] e]. unfold drift_ok in K. cbn [fst] in K. cbv zeta in K. apply andb_prop in K. destruct K as [K K4]. apply andb_prop in K. destruct K as [K K3]. apply andb_prop in K. destruct K as [K1 K2]. rewrite forallb_forall in K1. apply Nat.eqb_eq in K2.
  exists oc, h, e, (map (fun b => fin_of (en_test (bo_ours b))) (oc_bouts oc)), (map (fun b => fin_of (Some (bo_test b))) (oc_bouts oc)). split; auto. split; [now rewrite map_length|]. split; [intros Q; rewrite Q in K3; rewrite (proj2 (qeq_spec _ _) eq_refl) in K3; discriminate K3|]. split; auto.
  rewrite !map_map. split; apply map_ext_in; intros b I; specialize (K1 _ I); apply andb_prop in K1; destruct K1 as [A B].
  - destruct (en_test (bo_ours b)) as [[| | |]|]; try discriminate A. reflexivity.
  - destruct (bo_test b); try discriminate B. reflexivity.
Qed.
(** One seed: equal scores, no overlap. *)
Lemma same_scores_no_overlap : exists oc h e, m_sqrt Msqrt 0%Qc = 0%Qc /\ compare_accuracies sk_recall Msqrt P1 CtRFC d6 1 (twice Yc) env0 = Ok (oc, h, e) /\ st_avg (oc_test oc) = Fin 1%Qc /\ st_avg (oc_their_test oc) = Fin 1%Qc /\ oc_overlap oc = false.
Proof.
  assert (K : check (compare_accuracies sk_recall Msqrt P1 CtRFC d6 1 (twice Yc) env0) (fun r => let oc := fst (fst r) in match st_avg (oc_test oc), st_avg (oc_their_test oc) with Fin a, Fin b => qeq a 1 && qeq b 1 | _, _ => false end && negb (oc_overlap oc)) = true) by (vm_compute; reflexivity).
  take K. destruct x as [[oc h] e]. cbn [fst] in K. cbv zeta in K. exists oc, h, e. split; [apply Qc_is_canon; vm_compute; reflexivity|]. split; auto. apply andb_prop in K. destruct K as [K K2].
  destruct (st_avg (oc_test oc)) as [a| | |]; try discriminate K. destruct (st_avg (oc_their_test oc)) as [c| | |]; try discriminate K. apply andb_prop in K. destruct K as [Ka Kb]. apply qeq_spec in Ka. apply qeq_spec in Kb. subst. split; auto. split; auto. now destruct (oc_overlap oc).
Qed.
(** A boosted seed with numbers for predictions. *)
Lemma boosted_seed : nth_error (twice T6) (se_y d6) = Some {| la_int := false; la_vals := T6 |} /\ exists b h e vs g, fight sk_recall Msqrt P1 CtGBRFR d6 1 (twice T6) env0 = Ok (b, h, e) /\
  forest_predict_batch (en_cfg (bo_ours b)) (en_forest (bo_ours b)) X6 = Ok (map FReg vs, g) /\ length vs = 6.
Proof.
  split; [reflexivity|]. assert (K : check (fight sk_recall Msqrt P1 CtGBRFR d6 1 (twice T6) env0) (fun r => let b := fst (fst r) in check (forest_predict_batch (en_cfg (bo_ours b)) (en_forest (bo_ours b)) X6) (fun q => forallb (fun p => match p with FReg _ => true | _ => false end) (fst q) && (length (fst q) =? 6))) = true) by (vm_compute; reflexivity).
  take K. destruct x as [[b h] e]. cbn [fst] in K. cbv zeta in K. take K. destruct x as [ps g]. cbn [fst] in K. apply andb_prop in K. destruct K as [K1 K2]. apply Nat.eqb_eq in K2. rewrite forallb_forall in K1.
  exists b, h, e, (map (fun p => match p with FReg v => v | _ => 0%Qc end) ps), g. split; auto. split; [|now rewrite map_length]. match goal with Q : forest_predict_batch _ _ _ = _ |- _ => rewrite Q end. f_equal. f_equal. rewrite map_map. rewrite <- (map_id ps) at 1. apply map_ext_in. intros p I. specialize (K1 p I). destruct p; try discriminate K1. reflexivity.
Qed.

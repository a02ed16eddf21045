(** Runs behind the examples and refutations of PropsFInvar.v. *)
From Coq Require Import List Arith Bool ZArith QArith Qcanon Lia Permutation.
From Verif Require Import Base Num Rng Histogram Utils Criteria Solvers Tree Forest Spec SolverSpec TreeSpec InvarSpec ForestSpec FInvarSpec Samples NumFacts ListFacts TreeWitness ForestWitness InvarWitness.
Import ListNotations.
Local Open Scope nat_scope.

Definition frunC (P : prng) (c : fcfg) (h : heap) : res (forest * env * (forest * heap * env)) :=
  do fe <- forest_new P c (Some X6) (Some 0) None None h env0; do r <- forest_fit M0 P c (fst fe) (None, None) h (snd fe); Ok (fe, r).
Lemma frunC_ok P c h f e0 f1 h1 e1 : frunC P c h = Ok (f, e0, (f1, h1, e1)) -> forest_new P c (Some X6) (Some 0) None None h env0 = Ok (f, e0) /\ forest_fit M0 P c f (None, None) h e0 = Ok (f1, h1, e1).
Proof.
  unfold frunC. intros H. apply rbind_ok in H. destruct H as [[f' e'] [E1 H]]. apply rbind_ok in H. destruct H as [r [E2 H]]. cbn [fst snd] in *. injection H as -> -> ->. auto.
Qed.
Definition shift3 (y : Qc) : Qc := (y + z 3)%Qc.
Definition ints_of (l : list Qc) : heap := [{| la_int := true; la_vals := l |}].
Definition dbl (y : Qc) : Qc := (z 2 * y)%Qc.
Definition fval (r : res (fpred * forest)) : option Qc := match r with Ok (FReg v, _) => Some v | _ => None end.


Lemma classes_ex : good_classes [(z 0, 0); (z 1, 1)] /\ (forall y, In y Y6 -> In (trunc y) [z 0; z 1]) /\ forall k i, In (k, i) [(z 0, 0); (z 1, 1)] -> i < 2.
Proof.
  assert (I2 : forall k i, In (k, i) [(z 0, 0); (z 1, 1)] -> i < 2) by (intros k i [E|[E|[]]]; injection E as _ <-; lia).
  split; [|split; [|exact I2]].
  - split; [|split]; [repeat constructor; cbn; intuition discriminate|repeat constructor; cbn; intuition discriminate|exact I2].
  - intros y I. cbn in I. repeat (destruct I as [<-|I]; [cbn; first [left; apply Qc_is_canon; reflexivity | right; left; apply Qc_is_canon; reflexivity]|]). destruct I.
Qed.
Lemma fresh_trainable P c b Y f e0 : c = fc_cl /\ Y = Y6 \/ (c = fc_re \/ c = fc_bo) /\ Y = T6 -> forest_new P c (Some X6) (Some 0) None None [{| la_int := b; la_vals := Y |}] env0 = Ok (f, e0) ->
  forest_trainable c f (None, None) [{| la_int := b; la_vals := Y |}] X6 2 /\ (fc_class c = true -> f_classes f = [(z 0, 0); (z 1, 1)]).
Proof.
  intros C H. destruct classes_ex as (_ & C1 & C2).
  destruct C as [[-> ->]|[[->| ->] ->]]; cbn in H; injection H as <- _; (split; [eapply tidy_trainable; [reflexivity|reflexivity|cbn; auto|discriminate|reflexivity|cbn; intros Q; first [discriminate Q | split; [reflexivity|discriminate]]|reflexivity|reflexivity|reflexivity|reflexivity|reflexivity|reflexivity|reflexivity|cbn; lia|lia|apply X6_rect|]|]);
    try (intros Q; discriminate Q); [intros _; split; assumption|reflexivity].
Qed.

Lemma oob_names : exists P M c X g h e f e0 f1 h1 e1 f' e0' f1' h1' e1' sc f2 sc' f2',
  forest_trainable c f (None, None) h X 2 /\ forest_fixed_grid c /\ fc_class c = true /\ good_classes (f_classes f) /\ increasing g /\ frelabelling c (f_classes f) h g 1 /\
  forest_new P c (Some X) (Some 0) None None h e = Ok (f, e0) /\ forest_fit M P c f (None, None) h e0 = Ok (f1, h1, e1) /\
  forest_new P c (Some X) (Some 0) None None (move_heap g h) e = Ok (f', e0') /\ forest_fit M P c f' (None, None) (move_heap g h) e0' = Ok (f1', h1', e1') /\
  get_oob_score c f1 h1 None = Ok (sc, f2) /\ get_oob_score c f1' h1' None = Ok (sc', f2') /\ sc' <> sc.
Proof.
  exists P2, M0, fc_cl, X6, shift3, (heap_of Y6), env0.
  assert (K : check (frunC P2 fc_cl (heap_of Y6)) (fun a => check (frunC P2 fc_cl (move_heap shift3 (heap_of Y6))) (fun b =>
     check (get_oob_score fc_cl (fst (fst (snd a))) (snd (fst (snd a))) None) (fun s => check (get_oob_score fc_cl (fst (fst (snd b))) (snd (fst (snd b))) None) (fun s' => xneq (fst s') (fst s))))) = true) by (vm_compute; reflexivity).
  take K. take K. take K. take K. destruct x as [[f e0] [[f1 h1] e1]], x0 as [[f' e0'] [[f1' h1'] e1']], x1 as [sc f2], x2 as [sc' f2']. cbn [fst snd] in *. apply xneq_spec in K.
  destruct (frunC_ok _ _ _ _ _ _ _ _ H) as [N1 R1]. destruct (frunC_ok _ _ _ _ _ _ _ _ H0) as [N2 R2].
  exists f, e0, f1, h1, e1, f', e0', f1', h1', e1', sc, f2, sc', f2'. destruct (fresh_trainable P2 fc_cl false Y6 f e0 (or_introl (conj eq_refl eq_refl)) N1) as [TR FC]. specialize (FC eq_refl).
  split; [exact TR|]. split; [split; [reflexivity|now left]|]. split; [reflexivity|]. split; [rewrite FC; apply classes_ex|]. split; [intros x y L; unfold shift3; qlra|]. split.
  { split; [reflexivity|]. split; [|intros x y _ _ Q; unfold shift3 in Q; qlra]. intros la y [<-|[]] I. cbn [la_vals Y6] in I. repeat (destruct I as [<-|I]; [apply Qc_is_canon; vm_compute; reflexivity|]). destruct I. }
  repeat (split; [assumption|]). exact K.
Qed.

Lemma oob_offset : exists P M c X g h e f e0 f1 h1 e1 f' e0' f1' h1' e1' sc f2 sc' f2',
  forest_trainable c f (None, None) h X 2 /\ forest_fixed_grid c /\ fc_class c = false /\ (forall y, g y = (y + z 3)%Qc) /\ frelabelling c (f_classes f) h g 1 /\
  forest_new P c (Some X) (Some 0) None None h e = Ok (f, e0) /\ forest_fit M P c f (None, None) h e0 = Ok (f1, h1, e1) /\
  forest_new P c (Some X) (Some 0) None None (move_heap g h) e = Ok (f', e0') /\ forest_fit M P c f' (None, None) (move_heap g h) e0' = Ok (f1', h1', e1') /\
  get_oob_score c f1 h1 None = Ok (sc, f2) /\ get_oob_score c f1' h1' None = Ok (sc', f2') /\ sc' <> sc.
Proof.
  exists P2, M0, fc_re, X6, shift3, (heap_of T6), env0.
  assert (K : check (frunC P2 fc_re (heap_of T6)) (fun a => check (frunC P2 fc_re (move_heap shift3 (heap_of T6))) (fun b =>
     check (get_oob_score fc_re (fst (fst (snd a))) (snd (fst (snd a))) None) (fun s => check (get_oob_score fc_re (fst (fst (snd b))) (snd (fst (snd b))) None) (fun s' => xneq (fst s') (fst s))))) = true) by (vm_compute; reflexivity).
  take K. take K. take K. take K. destruct x as [[f e0] [[f1 h1] e1]], x0 as [[f' e0'] [[f1' h1'] e1']], x1 as [sc f2], x2 as [sc' f2']. cbn [fst snd] in *. apply xneq_spec in K.
  destruct (frunC_ok _ _ _ _ _ _ _ _ H) as [N1 R1]. destruct (frunC_ok _ _ _ _ _ _ _ _ H0) as [N2 R2].
  exists f, e0, f1, h1, e1, f', e0', f1', h1', e1', sc, f2, sc', f2'. destruct (fresh_trainable P2 fc_re false T6 f e0 (or_intror (conj (or_introl eq_refl) eq_refl)) N1) as [TR _].
  split; [exact TR|]. split; [split; [reflexivity|now left]|]. split; [reflexivity|]. split; [reflexivity|]. split.
  { exists 1%Qc, (z 3). split; [discriminate|]. split; [ring|]. split; [intros y; unfold shift3; ring|discriminate]. }
  repeat (split; [assumption|]). exact K.
Qed.

Definition reg_is (v : Qc) (r : res (fpred * forest)) : bool := match r with Ok (FReg w, _) => qeq v w | _ => false end.
Lemma boosted_ints : exists P M c X h e f e0 f1 h1 e1 f' e0' f1' h1' e1' x,
  forest_trainable c f (None, None) h X 2 /\ forest_fixed_grid c /\ fc_class c = false /\ fc_boosting c = true /\ (forall la, In la h -> la_int la = true) /\
  forest_new P c (Some X) (Some 0) None None h e = Ok (f, e0) /\ forest_fit M P c f (None, None) h e0 = Ok (f1, h1, e1) /\
  forest_new P (move_fcfg (z 4) c) (Some X) (Some 0) None None (move_heap dbl h) e = Ok (f', e0') /\ forest_fit M P (move_fcfg (z 4) c) f' (None, None) (move_heap dbl h) e0' = Ok (f1', h1', e1') /\
  In x X /\ answer (forest_predict (move_fcfg (z 4) c) f1' x) <> move_fanswer dbl (answer (forest_predict c f1 x)).
Proof.
  exists P2, M0, fc_bo, X6, (ints_of T6), env0.
  assert (K : check (frunC P2 fc_bo (ints_of T6)) (fun a => check (frunC P2 (move_fcfg (z 4) fc_bo) (move_heap dbl (ints_of T6))) (fun b =>
     check (forest_predict fc_bo (fst (fst (snd a))) [z 5; z 10]) (fun p => check (forest_predict (move_fcfg (z 4) fc_bo) (fst (fst (snd b))) [z 5; z 10]) (fun q =>
       match fst p, fst q with FReg v, FReg w => negb (qeq w (dbl v)) | _, _ => false end)))) = true) by (vm_compute; reflexivity).
  take K. take K. take K. take K. destruct x as [[f e0] [[f1 h1] e1]], x0 as [[f' e0'] [[f1' h1'] e1']], x1 as [p f2], x2 as [q f2']. cbn [fst snd] in *.
  destruct (frunC_ok _ _ _ _ _ _ _ _ H) as [N1 R1]. destruct (frunC_ok _ _ _ _ _ _ _ _ H0) as [N2 R2].
  exists f, e0, f1, h1, e1, f', e0', f1', h1', e1', [z 5; z 10]. destruct (fresh_trainable P2 fc_bo true T6 f e0 (or_intror (conj (or_intror eq_refl) eq_refl)) N1) as [TR _].
  split; [exact TR|]. split; [split; [reflexivity|now left]|]. split; [reflexivity|]. split; [reflexivity|]. split; [intros la [<-|[]]; reflexivity|].
  repeat (split; [assumption|]). split; [cbn; tauto|]. rewrite H1, H2. cbn [answer move_fanswer]. destruct p as [l ps|v|l|]; try discriminate K. destruct q as [l ps|w|l|]; try discriminate K. cbn [move_fpred]. intros Q. injection Q as ->. rewrite (proj2 (qeq_spec _ _) eq_refl) in K. discriminate K.
Qed.

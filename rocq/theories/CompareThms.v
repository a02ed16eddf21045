(** What the comparisons of two models compare. *)
From Coq Require Import List Arith Bool ZArith QArith Qcanon Lia.
From Verif Require Import Base Num Rng Histogram Utils Criteria Solvers Tree Forest Wrappers Compare Spec SolverSpec TreeSpec ForestSpec WrapSpec CompareSpec.
From Verif Require Import NumFacts ListFacts TreeFacts Repro ForestFacts ForestThms ForestMore ForestTotal ForestRepro WrapFacts WrapLife BlindThms.
Import ListNotations.
Local Open Scope nat_scope.

(** ** Taking a round apart *)
Lemma construct_env P w args h e o h' e' : construct P w args h e = Ok (o, h', e') -> e' = set_seed P (fc_seed (wo_cfg o)) e /\ forall e2, construct P w args h e2 = Ok (o, h', set_seed P (fc_seed (wo_cfg o)) e2).
Proof.
  intros H. unfold construct in *. apply rbind_ok in H. destruct H as [p [E1 H]]. rewrite E1. cbn [rbind]. apply rbind_ok in H. destruct H as [[[p' fe] h1] [E2 H]]. rewrite E2. cbn [rbind].
  apply rbind_ok in H. destruct H as [[[[at' c] f] e1] [E3 H]]. apply ok_inv in H. apply pair_equal_spec in H. destruct H as [H <-]. apply pair_equal_spec in H. destruct H as [<- <-]. cbn [wo_cfg].
  unfold forest_class in *. apply rbind_ok in E3. destruct E3 as [q [F1 E3]]. cbv zeta in *. rewrite F1. cbn [rbind]. apply rbind_ok in E3. destruct E3 as [c' [F2 E3]]. rewrite F2. cbn [rbind].
  apply rbind_ok in E3. destruct E3 as [d [F3 E3]]. rewrite F3. cbn [rbind]. apply rbind_ok in E3. destruct E3 as [l [F4 E3]]. rewrite F4. cbn [rbind]. apply rbind_ok in E3. destruct E3 as [cl [F5 E3]]. rewrite F5. cbn [rbind].
  apply rbind_ok in E3. destruct E3 as [bu [F6 E3]]. rewrite F6. cbn [rbind]. apply rbind_ok in E3. destruct E3 as [[f' e''] [F7 E3]]. cbn [fst snd] in E3. apply ok_inv in E3. apply pair_equal_spec in E3. destruct E3 as [E3 <-]. apply pair_equal_spec in E3. destruct E3 as [E3 <-]. apply pair_equal_spec in E3. destruct E3 as [<- <-].
  destruct (new_np _ _ _ _ _ _ _ _ _ _ F7) as [-> N]. split; [reflexivity|]. intros e2. rewrite N. reflexivity.
Qed.

Section Built.
Context (P : prng) (tk : task) (sv : solver) (seed : nat) (h : heap) (e : env) (o : wobj) (h' : heap) (e' : env) (H : construct P (tk_w tk) (call_args tk sv seed) h e = Ok (o, h', e')).
Lemma call_solver : fc_solver (wo_cfg o) = sv.
Proof.
  pose proof (attr_means _ _ _ _ _ _ _ _ H Ksolver ltac:(discriminate) ltac:(discriminate) ltac:(discriminate)) as X.
  assert (A : attribute o Ksolver = VSolver sv). { rewrite (optional_attr _ _ _ _ _ _ _ _ H Ksolver (VSolver EXACT)); [reflexivity|]. unfold optional. apply in_or_app. left. cbn. tauto. }
  rewrite A in X. exact X.
Qed.
Lemma call_seed : fc_seed (wo_cfg o) = seed.
Proof.
  pose proof (attr_means _ _ _ _ _ _ _ _ H Krandom_state ltac:(discriminate) ltac:(discriminate) ltac:(discriminate)) as X.
  assert (A : attribute o Krandom_state = VInt (Z.of_nat seed)). { rewrite (optional_attr _ _ _ _ _ _ _ _ H Krandom_state (VInt 0)); [reflexivity|]. unfold optional. apply in_or_app. left. cbn. tauto. }
  rewrite A in X. cbn in X. lia.
Qed.
Lemma call_grows : exists ext, h' = h ++ ext.
Proof.
  assert (D : patched (tk_w tk) \/ ~ patched (tk_w tk)) by (clear; unfold patched; destruct (tk_w tk); first [left; tauto|right; intros [Q|[Q|[Q|Q]]]; discriminate Q]).
  destruct D as [D|D]; [destruct (patch_shape _ _ _ _ _ _ _ _ H D) as (X & r0 & r & la & vN & vF & aN & aF & I & J & _ & _ & _ & _ & _ & _ & _ & _ & _ & _ & _ & _ & _ & _ & ->); eauto|].
  destruct (plain_shape _ _ _ _ _ _ _ _ H D) as (-> & _). exists []. now rewrite app_nil_r.
Qed.
Lemma call_boosting : ~ boosts (tk_w tk) -> fc_boosting (wo_cfg o) = false.
Proof.
  intros NB. pose proof (constructible _ _ _ _ _ _ _ _ H) as NC. assert (I : In (Kboosting, VBool false) (actual (tk_w tk))).
  { clear -NB NC. unfold boosts in NB. destruct (tk_w tk); try (exfalso; apply NC; unfold boosted_classifier; tauto); try (cbn; tauto); exfalso; apply NB; cbn; tauto. }
  apply (fixed_means _ _ _ _ _ _ _ _ H Kboosting (VBool false)); auto; discriminate.
Qed.
Lemma call_seedless : seedless (tk_w tk) -> fc_class (wo_cfg o) = false /\ fc_bin (wo_cfg o) <> RANDOM /\ fc_fsub (wo_cfg o) = FSNone /\ ~ patched (tk_w tk) /\ ~ boosts (tk_w tk).
Proof.
  intros S. pose proof (kind _ _ _ _ _ _ _ _ H) as K. pose proof (fixed_means _ _ _ _ _ _ _ _ H) as FM.
  assert (B : exists b, In (Kbin_type, VBin b) (actual (tk_w tk)) /\ b <> RANDOM) by (destruct S as [->|[->| ->]]; [exists IDENTITY|exists LINEAR|exists LINEAR]; (split; [cbn; tauto|discriminate])).
  destruct B as (b & B1 & B2). split; [rewrite K; destruct S as [->|[->| ->]]; reflexivity|]. split; [rewrite (FM _ _ B1 ltac:(discriminate) ltac:(discriminate) ltac:(discriminate)); exact B2|].
  split; [apply (FM Kfeature_subsampling VNone); try discriminate; destruct S as [->|[->| ->]]; cbn; tauto|]. unfold patched, boosts.
  split; [destruct S as [->|[->| ->]]; intros [Q|[Q|[Q|Q]]]; discriminate Q|]. clear -S. destruct S as [->|[->| ->]]; cbn; intros Q; repeat (destruct Q as [Q|Q]; [discriminate Q|]); exact Q.
Qed.
End Built.

Lemma judge_same tk c f h x : judge tk c f h = Ok x -> en_cfg x = c /\ en_forest x = f.
Proof.
  unfold judge. intros H. apply rbind_ok in H. destruct H as [p [_ H]]. apply rbind_ok in H. destruct H as [y [_ H]]. apply rbind_ok in H. destruct H as [s [_ H]].
  destruct (tk_predict tk); [apply rbind_ok in H; destruct H as [q [_ H]]; apply rbind_ok in H; destruct H as [yt [_ H]]; apply rbind_ok in H; destruct H as [st [_ H]]|]; apply ok_inv in H; subst x; auto.
Qed.
Lemma judge_heap tk c f h h' : nth_error h' (tk_y tk) = nth_error h (tk_y tk) -> nth_error h' (tk_testy tk) = nth_error h (tk_testy tk) -> judge tk c f h' = judge tk c f h.
Proof. intros A B. unfold judge, nth_res. rewrite A, B. reflexivity. Qed.

Record apart (M : math) (P : prng) (tk : task) (seed : nat) (h : heap) (e : env) (a : entry) (b : option entry) (h' : heap) (e' : env) (o1 o2 : wobj) (h1 h2 h3 : heap) (f1 : forest) (e3 : env) : Prop := {
  ap_one : construct P (tk_w tk) (call_args tk MAB seed) h e = Ok (o1, h1, set_seed P seed e);
  ap_two : construct P (tk_w tk) (call_args tk EXACT seed) h1 (set_seed P seed e) = Ok (o2, h2, set_seed P seed e);
  ap_fit : forest_fit M P (wo_cfg o1) (wo_forest o1) (None, None) h2 (set_seed P seed e) = Ok (f1, h3, e3);
  ap_ours : judge tk (wo_cfg o1) f1 h' = Ok a;
  ap_theirs : match b with
     | None => tk_theirs tk = false /\ h' = h3 /\ e' = e3
     | Some x => tk_theirs tk = true /\ exists f2, forest_fit M P (wo_cfg o2) (wo_forest o2) (None, None) h3 e3 = Ok (f2, h', e') /\ judge tk (wo_cfg o2) f2 h' = Ok x end }.
Lemma round_apart M P tk seed h e a b h' e' : round M P tk seed h e = Ok (a, b, h', e') -> exists o1 o2 h1 h2 h3 f1 e3, apart M P tk seed h e a b h' e' o1 o2 h1 h2 h3 f1 e3.
Proof.
  intros H. unfold round in H. apply rbind_ok in H. destruct H as [[[o1 h1] e1] [E1 H]]. apply rbind_ok in H. destruct H as [[[o2 h2] e2] [E2 H]]. apply rbind_ok in H. destruct H as [[[f1 h3] e3] [E3 H]].
  pose proof (proj1 (construct_env _ _ _ _ _ _ _ _ E1)) as Q1. rewrite (call_seed _ _ _ _ _ _ _ _ _ E1) in Q1. pose proof (proj1 (construct_env _ _ _ _ _ _ _ _ E2)) as Q2. rewrite (call_seed _ _ _ _ _ _ _ _ _ E2) in Q2.
  subst e1. change (set_seed P seed (set_seed P seed e)) with (set_seed P seed e) in Q2. subst e2. exists o1, o2, h1, h2, h3, f1, e3.
  destruct (tk_theirs tk) eqn:T.
  - apply rbind_ok in H. destruct H as [[[f2 h4] e4] [E4 H]]. apply rbind_ok in H. destruct H as [j1 [E5 H]]. apply rbind_ok in H. destruct H as [j2 [E6 H]]. apply ok_inv in H.
    apply pair_equal_spec in H. destruct H as [H <-]. apply pair_equal_spec in H. destruct H as [H <-]. apply pair_equal_spec in H. destruct H as [<- <-]. constructor; auto. split; auto. eauto.
  - apply rbind_ok in H. destruct H as [j1 [E5 H]]. apply ok_inv in H. apply pair_equal_spec in H. destruct H as [H <-]. apply pair_equal_spec in H. destruct H as [H <-]. apply pair_equal_spec in H. destruct H as [<- <-]. constructor; auto.
Qed.

(** ** The first model *)
Theorem ours_is_alone M P tk seed h e a b h' e' : ~ patched (tk_w tk) -> round M P tk seed h e = Ok (a, b, h', e') ->
  exists h1 e1, fitted_alone M P tk MAB seed h e (en_cfg a) (en_forest a) h1 e1 /\ judge tk (en_cfg a) (en_forest a) h' = Ok a.
Proof.
  intros NP H. destruct (round_apart _ _ _ _ _ _ _ _ _ _ H) as (o1 & o2 & h1 & h2 & h3 & f1 & e3 & [A1 A2 A3 A4 _]). destruct (judge_same _ _ _ _ _ A4) as [-> ->].
  destruct (plain_shape _ _ _ _ _ _ _ _ A1 NP) as (-> & _). destruct (plain_shape _ _ _ _ _ _ _ _ A2 NP) as (-> & _).
  exists h3, e3. split; auto. exists o1, h, (set_seed P seed e). auto.
Qed.
Theorem round_keeps_labels M P tk seed h e a b h' e' : ~ boosts (tk_w tk) -> round M P tk seed h e = Ok (a, b, h', e') -> length h <= length h' /\ forall r, r < length h -> nth_error h' r = nth_error h r.
Proof.
  intros NB H. destruct (round_apart _ _ _ _ _ _ _ _ _ _ H) as (o1 & o2 & h1 & h2 & h3 & f1 & e3 & [A1 A2 A3 A4 A5]).
  destruct (call_grows _ _ _ _ _ _ _ _ _ A1) as [x1 X1]. destruct (call_grows _ _ _ _ _ _ _ _ _ A2) as [x2 X2].
  assert (K : forall c f g ev f' g' ev', fc_boosting c = false -> forest_fit M P c f (None, None) g ev = Ok (f', g', ev') -> length g <= length g' /\ forall r, r < length g -> nth_error g' r = nth_error g r).
  { intros c f g ev f' g' ev' B F. destruct (labels_untouched _ _ _ _ _ _ _ _ _ _ F) as [U _]. specialize (U (or_introl B)). split; auto.
    destruct (Nat.le_gt_cases (length g) (length g')) as [L|L]; auto. exfalso. pose proof (U (length g') ltac:(lia)) as Q. rewrite (proj2 (nth_error_None g' (length g')) (Nat.le_refl _)) in Q. symmetry in Q. apply nth_error_None in Q. lia. }
  destruct (K _ _ _ _ _ _ _ (call_boosting _ _ _ _ _ _ _ _ _ A1 NB) A3) as [K1 K2].
  assert (L2 : length h <= length h2 /\ forall r, r < length h -> nth_error h2 r = nth_error h r).
  { subst. rewrite <- app_assoc. split; [rewrite app_length; lia|]. intros r L. now apply nth_error_app1. }
  destruct L2 as [L2 L3]. destruct b as [x|].
  - destruct A5 as (_ & f2 & F2 & _). destruct (K _ _ _ _ _ _ _ (call_boosting _ _ _ _ _ _ _ _ _ A2 NB) F2) as [K3 K4]. split; [lia|]. intros r L. rewrite K4 by lia. rewrite K2 by lia. now apply L3.
  - destruct A5 as (_ & -> & _). split; [lia|]. intros r L. rewrite K2 by lia. now apply L3.
Qed.
(** Without boosting the first model, its scores included, is the run alone. *)
Theorem ours_scores_alone M P tk seed h e a b h' e' : ~ patched (tk_w tk) -> ~ boosts (tk_w tk) -> tk_y tk < length h -> tk_testy tk < length h -> round M P tk seed h e = Ok (a, b, h', e') ->
  exists h1 e1, fitted_alone M P tk MAB seed h e (en_cfg a) (en_forest a) h1 e1 /\ judge tk (en_cfg a) (en_forest a) h = Ok a.
Proof.
  intros NP NB LY LT H. destruct (ours_is_alone _ _ _ _ _ _ _ _ _ _ NP H) as (h1 & e1 & A & B). exists h1, e1. split; auto.
  destruct (round_keeps_labels _ _ _ _ _ _ _ _ _ _ NB H) as [_ K]. now rewrite <- (judge_heap tk _ _ h h' (K _ LY) (K _ LT)).
Qed.

(** ** The second model *)
Theorem theirs_is_alone M P tk seed h e a b h' e' : seedless (tk_w tk) -> tk_y tk < length h -> tk_testy tk < length h -> round M P tk seed h e = Ok (a, Some b, h', e') ->
  exists h3 e3, fitted_alone M P tk MAB seed h e (en_cfg a) (en_forest a) h3 e3 /\ judge tk (en_cfg b) (en_forest b) h = Ok b /\
    forall e0, coming e3 e0 -> exists h1 e1, fitted_alone M P tk EXACT seed h e0 (en_cfg b) (en_forest b) h1 e1.
Proof.
  intros S LY LT H. destruct (round_apart _ _ _ _ _ _ _ _ _ _ H) as (o1 & o2 & h1 & h2 & h3 & f1 & e3 & [A1 A2 A3 A4 A5]). destruct A5 as (_ & f2 & F2 & J2).
  destruct (call_seedless _ _ _ _ _ _ _ _ _ A1 S) as (C1 & _ & _ & NP & NB). destruct (call_seedless _ _ _ _ _ _ _ _ _ A2 S) as (C2 & BT & FS & _ & _).
  destruct (plain_shape _ _ _ _ _ _ _ _ A1 NP) as (-> & _). destruct (plain_shape _ _ _ _ _ _ _ _ A2 NP) as (-> & _).
  destruct (judge_same _ _ _ _ _ J2) as [-> ->]. destruct (judge_same _ _ _ _ _ A4) as [-> ->].
  destruct (round_keeps_labels _ _ _ _ _ _ _ _ _ _ NB H) as [_ K]. exists h3, e3.
  split; [exists o1, h, (set_seed P seed e); auto|]. split; [rewrite <- (judge_heap tk _ _ h h' (K _ LY) (K _ LT)); exact J2|].
  intros e0 C. assert (HQ : h3 = h).
  { destruct (fitted_forest _ _ _ _ _ _ _ _ _ _ A3) as (data & F & g1 & hh & s & infos & SD & _ & -> & V). destruct (fi_heap _ _ _ _ _ _ _ _ _ _ V) as (V1 & _ & _). destruct (sd_heap _ _ _ _ _ _ _ _ SD) as (ext & EH & EX).
    rewrite (V1 (call_boosting _ _ _ _ _ _ _ _ _ A1 NB)), EH, (EX C1), app_nil_r. reflexivity. }
  subst h3. destruct (fit_reads_no_seed M P P (wo_cfg o2) (wo_forest o2) (None, None) h e3 (set_seed P seed e0) f2 h' e') as (e1' & E & _); auto.
  - split; [apply (call_solver _ _ _ _ _ _ _ _ _ A2)|]. auto.
  - exists h', e1', o2, h, (set_seed P seed e0). split; auto. destruct (construct_env _ _ _ _ _ _ _ _ A2) as [_ N]. rewrite N. now rewrite (call_seed _ _ _ _ _ _ _ _ _ A2).
Qed.

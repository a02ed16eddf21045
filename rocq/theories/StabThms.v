(** Proofs about the stability experiments. *)
From Coq Require Import List Arith Bool ZArith QArith Qcanon Lia.
From Verif Require Import Base Num Rng Histogram Utils Criteria Solvers Tree Forest Permutation Wrappers Compare Stability Spec SolverSpec TreeSpec ForestSpec PermSpec StabSpec.
From Verif Require Import NumFacts ListFacts HistAdd TreeFacts ForestRepro PermFacts PermLife EnsThms.
Import ListNotations.
Local Open Scope nat_scope.

(** ** Each object alone *)
Lemma baseline_finds order M P c seed k h e v h' e' : baseline order M P c seed k h e = Ok (v, h', e') ->
  (forall e0, coming e e0 -> finds order M P c seed k h e0 v) /\ (length h <= length h' /\ forall r, r < length h -> nth_error h' r = nth_error h r).
Proof.
  intros H. unfold baseline in H. apply rbind_ok in H. destruct H as [[s e1] [E H]]. apply rbind_ok in H. destruct H as [[[[w s2] h2] e2] [R H]]. apply ok_inv in H. apply pair_equal_spec in H. destruct H as [H <-]. apply pair_equal_spec in H. destruct H as [<- <-]. cbn [fst snd] in R.
  unfold run_baseline in R. apply rbind_ok in R. destruct R as [[[[rows s3] h3] e3] [A R]]. apply rbind_ok in R. destruct R as [imp [FR R]]. apply rbind_ok in R. destruct R as [q0 [SF R]]. apply ok_inv in R. apply pair_equal_spec in R. destruct R as [R <-]. apply pair_equal_spec in R. destruct R as [R <-]. apply pair_equal_spec in R. destruct R as [<- <-].
  split.
  - intros e0 C. destruct (perm_repro _ _ _ _ _ _ _ _ _ _ _ _ _ C E A) as (e1' & e2' & E' & A'). exists s, e1', s3, h3, e2'. split; auto. unfold run_baseline. rewrite A'. cbn [rbind]. rewrite FR. cbn [rbind]. rewrite SF. reflexivity.
  - pose proof (array_labels _ _ _ _ _ _ _ _ _ _ A) as L. split; auto. destruct (Nat.le_gt_cases (length h) (length h3)) as [G|G]; auto. exfalso. pose proof (L (length h3) G) as Q.
    rewrite (proj2 (nth_error_None h3 (length h3)) (Nat.le_refl _)) in Q. symmetry in Q. apply nth_error_None in Q. lia.
Qed.

Definition past (n : nat) (g : tape) : tape := Nat.iter n (fun g => snd (draw g)) g.
Lemma past_in n g : past n (snd (draw g)) = snd (draw (past n g)). Proof. induction n as [|n IH]; [reflexivity|]. change (snd (draw (past n (snd (draw g)))) = snd (draw (snd (draw (past n g))))). now rewrite IH. Qed.
Lemma nth_draws n g i : i < n -> nth i (draws n g) 0 = fst (draw (past i g)).
Proof. revert g i. induction n as [|n IH]; intros g [|i] L; try lia; cbn [draws nth]; [reflexivity|]. rewrite IH by lia. now rewrite past_in. Qed.

Theorem trials_alone order M P t seed h e l h' e' : trials order M P t seed h e = Ok (l, h', e') ->
  length l = tt_trials t /\
  forall i v w, nth_error l i = Some (v, w) -> exists c1 c2 h1 e1 h2 e2, searching (tt_cfg t) EXACT (pc_leaves (tt_cfg t)) c1 /\ searching (tt_cfg t) MAB None c2 /\
    (forall r, r < length h -> nth_error h1 r = nth_error h r /\ nth_error h2 r = nth_error h r) /\
    (forall e0, coming e1 e0 -> finds order M P c1 (nth (2 * i) (draws (2 * tt_trials t) (seed_gen P seed)) 0) (tt_k t) h1 e0 v) /\
    (forall e0, coming e2 e0 -> finds order M P c2 (nth (2 * i + 1) (draws (2 * tt_trials t) (seed_gen P seed)) 0) (tt_k t) h2 e0 w).
Proof.
  intros H. unfold trials in H. apply rbind_ok in H. destruct H as [[[[l0 g] h0] e0] [F H]]. apply ok_inv in H. apply pair_equal_spec in H. destruct H as [H <-]. apply pair_equal_spec in H. destruct H as [<- <-].
  set (n := tt_trials t) in *. set (g0 := seed_gen P seed) in *.
  assert (K : forall m l g h1 e1, m <= n -> foldM (trial order M P t) ([], g0, h, set_np e (seed_np P seed)) (seq 0 m) = Ok (l, g, h1, e1) -> g = past (2 * m) g0 /\ length l = m /\ length h <= length h1 /\ (forall r, r < length h -> nth_error h1 r = nth_error h r) /\
    forall i v w, nth_error l i = Some (v, w) -> exists c1 c2 h1 e1 h2 e2, searching (tt_cfg t) EXACT (pc_leaves (tt_cfg t)) c1 /\ searching (tt_cfg t) MAB None c2 /\
    (forall r, r < length h -> nth_error h1 r = nth_error h r /\ nth_error h2 r = nth_error h r) /\
    (forall e0, coming e1 e0 -> finds order M P c1 (nth (2 * i) (draws (2 * n) g0) 0) (tt_k t) h1 e0 v) /\
    (forall e0, coming e2 e0 -> finds order M P c2 (nth (2 * i + 1) (draws (2 * n) g0) 0) (tt_k t) h2 e0 w)).
  { clear F l0 g h0 e0. induction m as [|m IH]; intros l g h1 e1 LM F.
    - cbn in F. apply ok_inv in F. apply pair_equal_spec in F. destruct F as [F <-]. apply pair_equal_spec in F. destruct F as [F <-]. apply pair_equal_spec in F. destruct F as [<- <-]. repeat split; auto. intros [|i] v w Q; discriminate Q.
    - rewrite seq_S, foldM_app in F. apply rbind_ok in F. destruct F as [[[[l1 g1] h2] e2] [F1 F]]. destruct (IH l1 g1 h2 e2 ltac:(lia) F1) as (G & L1 & HL & HP & OLD). cbn [plus foldM] in F. apply rbind_ok in F. destruct F as [[[[l2 g2] h3] e3] [T F]]. apply ok_inv in F. apply pair_equal_spec in F. destruct F as [F <-]. apply pair_equal_spec in F. destruct F as [F <-]. apply pair_equal_spec in F. destruct F as [<- <-].
      unfold trial in T. destruct (draw g1) as [s1 g3] eqn:D1. destruct (draw g3) as [s2 g4] eqn:D2. apply rbind_ok in T. destruct T as [[[v h4] e4] [B1 T]]. apply rbind_ok in T. destruct T as [[[w h5] e5] [B2 T]]. apply ok_inv in T. apply pair_equal_spec in T. destruct T as [T <-]. apply pair_equal_spec in T. destruct T as [T <-]. apply pair_equal_spec in T. destruct T as [<- <-].
      destruct (baseline_finds _ _ _ _ _ _ _ _ _ _ _ B1) as (A1 & A2 & A3). destruct (baseline_finds _ _ _ _ _ _ _ _ _ _ _ B2) as (C1 & C2 & C3).
      assert (G3 : g3 = past (2 * m + 1) g0) by (replace (2 * m + 1) with (S (2 * m)) by lia; change (past (S (2 * m)) g0) with (snd (draw (past (2 * m) g0))); rewrite <- G, D1; reflexivity).
      assert (G4 : g4 = past (2 * S m) g0) by (replace (2 * S m) with (S (2 * m + 1)) by lia; change (past (S (2 * m + 1)) g0) with (snd (draw (past (2 * m + 1) g0))); rewrite <- G3, D2; reflexivity).
      split; [exact G4|]. split; [rewrite app_length; cbn; lia|]. split; [lia|]. split; [intros r R; rewrite C3, A3 by lia; now apply HP|].
      intros i v0 w0 Q. destruct (Nat.lt_ge_cases i (length l1)) as [I|I]; [rewrite nth_error_app1 in Q by auto; now apply OLD|]. rewrite nth_error_app2 in Q by auto. destruct (i - length l1) as [|d] eqn:DI; [|destruct d; discriminate Q]. injection Q as <- <-.
      assert (i = m) as -> by lia. exists (pc_with (tt_cfg t) EXACT (pc_leaves (tt_cfg t))), (pc_with (tt_cfg t) MAB None), h2, e2, h4, e4. split; [constructor; repeat split; reflexivity|]. split; [constructor; repeat split; reflexivity|].
      split; [intros r R; split; [now apply HP|rewrite A3 by lia; now apply HP]|].
      rewrite !nth_draws by lia. rewrite <- G, <- G3, D1, D2. cbn [fst]. split; auto. }
  destruct (K n l0 g h0 e0 (Nat.le_refl _) F) as (_ & L & _ & _ & A). split; auto.
Qed.

(** ** The verdict *)
Lemma xmean_fin {A} (f : A -> Qc) l : l <> [] -> xmean (map (fun a => Fin (f a)) l) = Fin (mean (map f l)).
Proof.
  intros N. unfold xmean. rewrite xsum_fin, map_length, xdiv_fin by (apply Nq_neq0; destruct l; [contradiction|cbn; lia]). unfold mean. rewrite map_length, (total_qsum (map f l)). reflexivity.
Qed.
Lemma stat_fin M l : root M -> l <> [] -> stat_of M (length l) (map Fin l) = {| st_avg := Fin (mean l); st_std := Fin (std_error M l) |}.
Proof.
  intros R N. unfold stat_of. rewrite (xmean_fin (fun q => q)) by auto. rewrite map_id. f_equal. unfold xstd. rewrite (xmean_fin (fun q => q)) by auto. rewrite map_id, map_map. cbn [xsub xadd xopp xmul].
  rewrite (xmean_fin (fun q => ((q + - mean l) * (q + - mean l))%Qc)) by auto. assert (V : mean (map (fun q => ((q + - mean l) * (q + - mean l))%Qc) l) = variance l) by (unfold variance, mean at 1; rewrite map_length; reflexivity). rewrite V.
  unfold xsqrt. rewrite (proj2 (qlt_false _ _) (variance_nonneg l)). assert (P : (0 < Nq (length l))%Qc) by (apply Nq_pos; destruct l; [contradiction|cbn; lia]).
  rewrite (proj2 (qlt_false _ _) (Qclt_le_weak _ _ P)). rewrite xdiv_fin; [reflexivity|]. intros Z. destruct (R (Nq (length l)) (Qclt_le_weak _ _ P)) as [_ Q]. apply Q in P. rewrite Z in P. now apply Qclt_not_eq in P.
Qed.
Lemma err_nonneg M l : root M -> l <> [] -> (0 <= std_error M l)%Qc.
Proof.
  intros R N. unfold std_error. assert (P : (0 < rat (length l))%Qc) by (apply Nq_pos; destruct l; [contradiction|cbn; lia]). apply qdiv_le_0; [apply R, variance_nonneg|]. now apply (proj2 (R _ (Qclt_le_weak _ _ P))).
Qed.

Lemma qmul_nn (a b : Qc) : (0 <= a)%Qc -> (0 <= b)%Qc -> (0 <= a * b)%Qc. Proof. intros. qnra. Qed.
Section Verdict.
Variables (order : list Qc -> list nat) (M : math) (P : prng) (t : stest) (seed : nat) (h : heap) (e : env) (l : list (Qc * Qc)) (h' : heap) (e' : env).
Hypothesis RT : root M.
Hypothesis RUN : trials order M P t seed h e = Ok (map (fun ab => (Fin (fst ab), Fin (snd ab))) l, h', e').
Hypothesis ONE : 1 <= tt_trials t.
Local Notation ex := (map fst l).
Local Notation mab := (map snd l).
Local Notation conf := (tt_conf t).
Lemma run_len : length l = tt_trials t. Proof. destruct (trials_alone _ _ _ _ _ _ _ _ _ _ RUN) as [L _]. now rewrite map_length in L. Qed.
Theorem verdict_finite :
  ((mean ex + conf * std_error M ex < mean mab - conf * std_error M mab)%Qc ->
     stability_test order M P t seed h e = Ok ((Fin (mean ex - conf * std_error M ex)%Qc, Fin (mean ex + conf * std_error M ex)%Qc), (Fin (mean mab - conf * std_error M mab)%Qc, Fin (mean mab + conf * std_error M mab)%Qc), h', e')) /\
  ((mean mab - conf * std_error M mab <= mean ex + conf * std_error M ex)%Qc -> stability_test order M P t seed h e = Err AssertionError).
Proof.
  pose proof run_len as L. assert (N : l <> []) by (intros ->; cbn in L; lia). assert (N1 : ex <> []) by (destruct l; [contradiction|discriminate]). assert (N2 : mab <> []) by (destruct l; [contradiction|discriminate]).
  unfold stability_test. rewrite RUN. cbn [rbind]. rewrite !map_map. cbn [fst snd]. rewrite <- (map_map fst Fin), <- (map_map snd Fin). unfold interval.
  rewrite <- L at 1 2 3 4. rewrite <- L. replace (length l) with (length ex) by apply map_length. rewrite (stat_fin M ex RT N1). replace (length ex) with (length mab) by (now rewrite !map_length). rewrite (stat_fin M mab RT N2).
  cbn [st_avg st_std xmul xsub xadd xopp fst snd]. unfold xle. cbn [xlt xeq].
  split; intros Q.
  - assert (X : (qlt (mean mab + - (std_error M mab * conf)) (mean ex + std_error M ex * conf) || qeq (mean mab + - (std_error M mab * conf)) (mean ex + std_error M ex * conf))%bool = false).
    { apply orb_false_iff. split; [apply qlt_false; qlra|]. destruct (qeq _ _) eqn:E; auto. apply qeq_spec in E. exfalso. qlra. }
    rewrite X. cbn [negb guard rbind]. rewrite !(Qcmult_comm _ conf). reflexivity.
  - assert (X : (qlt (mean mab + - (std_error M mab * conf)) (mean ex + std_error M ex * conf) || qeq (mean mab + - (std_error M mab * conf)) (mean ex + std_error M ex * conf))%bool = true).
    { apply orb_true_iff. destruct (Qclt_le_dec (mean mab + - (std_error M mab * conf)) (mean ex + std_error M ex * conf)) as [D|D]; [left; now apply qlt_spec|right]. apply qeq_spec. apply Qcle_antisym; auto. qlra. }
    rewrite X. reflexivity.
Qed.
(** It passes only if MAB is the more stable on average; otherwise it raises, overlap or not. *)
Theorem passes_only_if_better : (0 <= conf)%Qc -> (mean mab <= mean ex)%Qc -> stability_test order M P t seed h e = Err AssertionError.
Proof.
  intros C Q. apply verdict_finite. pose proof run_len as L. assert (N : l <> []) by (intros ->; cbn in L; lia). assert (N1 : ex <> []) by (destruct l; [contradiction|discriminate]). assert (N2 : mab <> []) by (destruct l; [contradiction|discriminate]).
  pose proof (qmul_nn _ _ C (err_nonneg M ex RT N1)). pose proof (qmul_nn _ _ C (err_nonneg M mab RT N2)). qlra.
Qed.
End Verdict.

(** ** What is not a number passes *)
Lemma xadd_nan_r a : xadd a NaN = NaN. Proof. destruct a; reflexivity. Qed.
Lemma xsum_nan l : In NaN l -> xsum l = NaN.
Proof.
  induction l as [|a l IH]; intros I; [destruct I|]. change (xsum (a :: l)) with (xadd a (xsum l)). destruct I as [->|I]; [reflexivity|]. rewrite IH by auto. apply xadd_nan_r.
Qed.
Lemma interval_nan M n conf l : In NaN l \/ l = [] -> interval M n conf l = (NaN, NaN).
Proof.
  intros I. unfold interval, stat_of. cbn [st_avg st_std]. assert (X : xmean l = NaN) by (destruct I as [I| ->]; [unfold xmean; rewrite xsum_nan by auto; reflexivity|reflexivity]). rewrite X. reflexivity.
Qed.
Theorem nan_passes order M P t seed h e l h' e' : trials order M P t seed h e = Ok (l, h', e') -> In NaN (map fst l) \/ In NaN (map snd l) \/ tt_trials t = 0 ->
  exists ex mab, stability_test order M P t seed h e = Ok (ex, mab, h', e') /\ (ex = (NaN, NaN) \/ mab = (NaN, NaN)).
Proof.
  intros R I. destruct (trials_alone _ _ _ _ _ _ _ _ _ _ R) as [L _]. unfold stability_test. rewrite R. cbn [rbind]. set (ex := interval M (tt_trials t) (tt_conf t) (map fst l)). set (mb := interval M (tt_trials t) (tt_conf t) (map snd l)).
  assert (N : ex = (NaN, NaN) \/ mb = (NaN, NaN)).
  { destruct I as [I|[I|I]]; [left; apply interval_nan; auto|right; apply interval_nan; auto|left; apply interval_nan; right]. rewrite I in L. destruct l; [reflexivity|discriminate L]. }
  assert (X : xle (fst mb) (snd ex) = false). { destruct N as [-> | ->]; cbn [fst snd]; [destruct (fst mb); reflexivity|reflexivity]. }
  rewrite X. cbn [negb guard rbind]. eauto.
Qed.
(** Asking for no features gives nan. *)
Lemma zero_features order M P c s h e v s' h' e' : run_baseline order M P c s (Some 0%Z) h e = Ok (v, s', h', e') -> v = NaN.
Proof.
  intros H. unfold run_baseline in H. apply rbind_ok in H. destruct H as [[[[rows s3] h3] e3] [_ R]]. apply rbind_ok in R. destruct R as [imp [_ R]]. apply rbind_ok in R. destruct R as [q0 [SF R]]. apply ok_inv in R. apply pair_equal_spec in R. destruct R as [R _]. apply pair_equal_spec in R. destruct R as [R _]. apply pair_equal_spec in R. destruct R as [<- _].
  unfold stability_freq in SF. apply rbind_ok in SF. destruct SF as [r0 [_ SF]]. apply rbind_ok in SF. destruct SF as [u1 [_ SF]]. apply rbind_ok in SF. destruct SF as [u2 [G SF]]. apply ok_inv in SF. subst q0.
  assert (B : map (best_features order 0%Z) imp = map (fun _ => []) imp) by (apply map_ext; intros r; unfold best_features, slice_len; cbn; reflexivity). rewrite B.
  assert (C : forall p, count_where p (map (fun _ : list Qc => @nil Z) imp) = 0) by (intros p; unfold count_where; rewrite map_map; cbn; clear; induction imp; cbn; auto). rewrite !C. rewrite Nq_0.
  assert (Z : (0 / Nq (length imp) = 0)%Qc) by (unfold Qcdiv; ring).
  assert (D : (0 / Nq (length imp) * (1 - 0 / Nq (length imp) / Nq (length r0)) / Nq (length r0) = 0)%Qc) by (rewrite Z; unfold Qcdiv; ring). rewrite D.
  match goal with |- context [xsum ?m] => assert (S : xsum m = Fin 0%Qc \/ xsum m = NaN) end.
  { induction (seq 0 (length r0)) as [|i s0 IH]; cbn [map]; [left; reflexivity|]. match goal with |- context [xsum (?a :: ?m)] => change (xsum (a :: m)) with (xadd a (xsum m)) end. match goal with |- context [xadd _ (xsum ?m)] => revert IH; generalize (xsum m) end. intros w IH. rewrite C, Nq_0, Z.
    replace (Nq (length imp) * 0 * (1 - 0))%Qc with 0%Qc by ring. cbn [xdiv]. destruct (qeq _ 0); [right; destruct IH as [-> | ->]; reflexivity|]. destruct IH as [-> | ->]; [left|right; reflexivity]. reflexivity. }
  destruct S as [-> | ->]; [|reflexivity]. cbn [xdiv]. destruct (qeq (Nq (length r0)) 0) eqn:Q; [reflexivity|]. replace (0 / Nq (length r0))%Qc with 0%Qc by (unfold Qcdiv; ring). reflexivity.
Qed.
Theorem zero_features_pass order M P t seed h e l h' e' : tt_k t = 0%Z -> trials order M P t seed h e = Ok (l, h', e') -> exists ex mab, stability_test order M P t seed h e = Ok (ex, mab, h', e') /\ ex = (NaN, NaN) /\ mab = (NaN, NaN).
Proof.
  intros K R. destruct (trials_alone _ _ _ _ _ _ _ _ _ _ R) as [L A]. rewrite K in A.
  assert (ALL : forall i v w, nth_error l i = Some (v, w) -> v = NaN /\ w = NaN).
  { intros i v w N. destruct (A i v w N) as (c1 & c2 & h1 & e1 & h2 & e2 & _ & _ & _ & F1 & F2). destruct (F1 e1 (fun _ => eq_refl)) as (? & ? & ? & ? & ? & _ & Q1). destruct (F2 e2 (fun _ => eq_refl)) as (? & ? & ? & ? & ? & _ & Q2). split; eapply zero_features; eauto. }
  unfold stability_test. rewrite R. cbn [rbind]. rewrite !interval_nan; [cbn; eauto 6|..]; (destruct l as [|[v w] l]; [now right|left; destruct (ALL 0 v w eq_refl) as [-> ->]; now left]).
Qed.

(** ** The test with one seed *)
Theorem budget_test_passes order M P c seed k h e h' e' : budget_test order M P c seed k h e = Ok (h', e') ->
  exists c1 c2 h1 e1 e2 v w, searching c EXACT (pc_leaves c) c1 /\ searching c MAB (pc_leaves c) c2 /\ (forall r, r < length h -> nth_error h1 r = nth_error h r) /\
    (forall e0, coming e1 e0 -> finds order M P c1 seed k h e0 v) /\ (forall e0, coming e2 e0 -> finds order M P c2 seed k h1 e0 w) /\ xlt v w = true.
Proof.
  intros H. unfold budget_test in H. apply rbind_ok in H. destruct H as [[[v h1] e1] [B1 H]]. apply rbind_ok in H. destruct H as [[[w h2] e2] [B2 H]]. apply rbind_ok in H. destruct H as [u [G H]]. apply guard_ok in G.
  destruct (baseline_finds _ _ _ _ _ _ _ _ _ _ _ B1) as (A1 & A2 & A3). destruct (baseline_finds _ _ _ _ _ _ _ _ _ _ _ B2) as (C1 & _).
  exists (pc_with c EXACT (pc_leaves c)), (pc_with c MAB (pc_leaves c)), h1, e, e1, v, w. split; [constructor; repeat split; reflexivity|]. split; [constructor; repeat split; reflexivity|]. auto.
Qed.

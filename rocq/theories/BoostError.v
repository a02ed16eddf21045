(** Boosting does not increase the training error. *)
From Coq Require Import List Arith Bool ZArith QArith Qcanon Lia Permutation.
From Verif Require Import Base Num Rng Histogram Utils Criteria Solvers Tree Forest Spec SolverSpec TreeSpec TrainSpec ForestSpec NumFacts ListFacts CritFacts UtilsFacts TreeFacts CountFacts TreeThms TrainFacts ForestFacts ForestThms ForestMore ForestRun ForestRound.
Import ListNotations.
Local Open Scope nat_scope.

Lemma sq_scaled l mu : l <> [] ->
  (qsum (map (fun y => (y - mu * qmean l) * (y - mu * qmean l)) l) = qsum (map (fun y => y * y) l) - Nq (length l) * (qmean l * qmean l) * (mu * (1 + 1 - mu)))%Qc.
Proof.
  intros NE. assert (P : (Nq (length l) <> 0)%Qc) by (apply Nq_neq0; destruct l; [contradiction|cbn; lia]).
  assert (G : forall c, (qsum (map (fun y => (y - c) * (y - c)) l) = qsum (map (fun y => y * y) l) - (1 + 1) * c * qsum l + Nq (length l) * (c * c))%Qc).
  { intros c. clear NE P. induction l as [|y l IH]; [cbn [map qsum length]; rewrite Nq_0; ring|]. cbn [map qsum length]. rewrite IH, Nq_S. ring. }
  rewrite !G. unfold qmean. field. auto.
Qed.
Lemma sq_shrinks l mu : (0 <= mu)%Qc -> (mu <= 1 + 1)%Qc -> (qsum (map (fun y => (y - mu * qmean l) * (y - mu * qmean l)) l) <= qsum (map (fun y => y * y) l))%Qc.
Proof.
  intros H0 H2. destruct l as [|y l]; [cbn; apply qle_refl|]. rewrite sq_scaled by discriminate.
  assert (0 <= mu * (1 + 1 - mu))%Qc by (apply qmult_le_0; auto; qlra).
  pose proof (qmult_le_0 _ _ (qmult_le_0 _ _ (Nq_nonneg (length (y :: l))) (qsquare_nonneg (qmean (y :: l)))) H). qlra.
Qed.

Lemma trunc_sq d : (trunc d * trunc d <= d * d)%Qc.
Proof.
  destruct (trunc_spec d) as [n [-> [[T1 T2] _]]]. destruct (qle_lt_dec 0 d) as [H|H].
  - destruct (T1 H) as [A B]. clear T1 T2. assert (N0 : (0 <= Zq n)%Qc).
    { change 0%Qc with (Zq 0). apply (Zq_le 0 n). apply Z.lt_succ_r, Zq_lt. rewrite <- Z.add_1_r, Zq_plus, Zq_1. change (Zq 0) with 0%Qc. qlra. }
    pose proof (qmult_le_0 (d - Zq n) (d + Zq n) ltac:(qlra) ltac:(qlra)) as Q. assert (E : ((d - Zq n) * (d + Zq n) = d * d - Zq n * Zq n)%Qc) by ring. rewrite E in Q. qlra.
  - destruct (T2 H) as [A B]. clear T1 T2. assert (N0 : (Zq n <= 0)%Qc).
    { change 0%Qc with (Zq 0). apply (Zq_le n 0). assert (n - 1 < 0)%Z by (apply Zq_lt; rewrite Zq_minus, Zq_1; change (Zq 0) with 0%Qc; qlra). lia. }
    pose proof (qmult_le_0 (Zq n - d) (- d - Zq n) ltac:(qlra) ltac:(qlra)) as Q. assert (E : ((Zq n - d) * (- d - Zq n) = d * d - Zq n * Zq n)%Qc) by ring. rewrite E in Q. qlra.
Qed.

(** Sums over an array, split into the rows seen and the others. *)
Lemma sum_seq (g : Qc -> Qc) l : qsum (map g l) = qsum (map (fun i => g (nth i l 0%Qc)) (seq 0 (length l))).
Proof.
  induction l as [|y l IH] using rev_ind; [reflexivity|]. rewrite app_length, seq_app, !map_app, !qsum_app. cbn [length seq Nat.add map qsum]. f_equal.
  - rewrite IH. f_equal. apply map_ext_in. intros i I. apply in_seq in I. rewrite app_nth1 by lia. reflexivity.
  - now rewrite app_nth2, Nat.sub_diag by lia.
Qed.
Lemma seen_rest I n : NoDup I -> (forall i, In i I -> i < n) -> Permutation (seq 0 n) (I ++ filter (fun i => if in_dec Nat.eq_dec i I then false else true) (seq 0 n)).
Proof.
  intros ND B. apply NoDup_Permutation; [apply seq_NoDup| |].
  - apply nodup_app; auto; [apply NoDup_filter, seq_NoDup|]. intros x IX K. apply filter_In in K. destruct K as [_ K]. destruct (in_dec Nat.eq_dec x I); [discriminate|contradiction].
  - intros x. rewrite in_app_iff, filter_In, !in_seq. split.
    + intros H. destruct (in_dec Nat.eq_dec x I) as [K|K]; [now left|right]. split; auto.
    + intros [H|[H _]]; auto. split; [lia|]. cbn. auto.
Qed.

Section Round.
Context (P : prng) (M : math) (tc : tcfg) (a : targs) (t : tree).
Context (G : grown P M tc a t) (NE : train_rows a <> []) (IC : tc_class tc = false).
Notation lab := (fun i => nth i (ta_labels a) 0%Qc).

(** Training error of one grown tree, scaled by mu. *)
Lemma grown_errors v : (forall i, In i (train_rows a) -> answer (tree_predict tc t (nth i (ta_data a) [])) = Ok (PReg (v i))) ->
  (forall k, (qsum (map (fun i => (lab i - v i) * (lab i - v i)) (train_rows a)) <= qsum (map (fun i => (lab i - k) * (lab i - k)) (train_rows a)))%Qc) /\
  (forall mu, (0 <= mu)%Qc -> (mu <= 1 + 1)%Qc -> (qsum (map (fun i => (lab i - mu * v i) * (lab i - mu * v i)) (train_rows a)) <= qsum (map (fun i => lab i * lab i) (train_rows a)))%Qc).
Proof.
  intros V. pose proof G as [e [t0 [B [xs [qs H2]]]]].
  assert (Q : forall i, In i (train_rows a) -> fresh_answer tc t0 (nth i (ta_data a) []) = Ok (PReg (v i))).
  { intros i I. rewrite <- (V i I), (fitted_memoryless P M tc a e t0 B NE xs qs t _ H2). symmetry. apply answer_fresh. apply (cached_self P M tc a e t0 B NE). }
  pose proof (leaf_mean P M tc a e t0 B NE (fun i => PReg (v i)) IC Q) as LM. cbn [number_of] in LM.
  assert (TO : forall leaf f, qsum (map (fun i => f (lab i)) (node_rows t0 leaf)) = qsum (map f (labels_at (ta_labels a) (node_rows t0 leaf)))) by (intros; unfold labels_at; now rewrite map_map).
  split.
  - intros k. rewrite !(over_leaves P M tc a e t0 B NE). apply qsum_map_le. intros leaf IL. rewrite (TO leaf (fun y => (y - k) * (y - k))%Qc).
    eapply qle_trans; [|apply mean_best]. rewrite <- TO. match goal with |- (?x <= ?y)%Qc => assert (E : x = y) end.
    { f_equal. apply map_ext_in. intros i II. now rewrite (LM leaf i IL II). }
    rewrite E. apply qle_refl.
  - intros mu M0 M2. rewrite !(over_leaves P M tc a e t0 B NE). apply qsum_map_le. intros leaf IL. rewrite (TO leaf (fun y => y * y)%Qc).
    eapply qle_trans; [|apply (sq_shrinks _ mu M0 M2)]. rewrite <- TO. match goal with |- (?x <= ?y)%Qc => assert (E : x = y) end.
    { f_equal. apply map_ext_in. intros i II. now rewrite (LM leaf i IL II). }
    rewrite E. apply qle_refl.
Qed.
End Round.

Lemma round_shrinks P M c k tc a t int y y' lr : grown P M tc a t -> tc_class tc = false -> NoDup (train_rows a) -> ta_labels a = y -> fc_lr c = Some lr -> (0 <= lr)%Qc -> (lr <= 1 + 1)%Qc ->
  boost_round c k tc t (ta_data a) (train_rows a) int y y' -> (sum_sq y' <= sum_sq y)%Qc.
Proof.
  intros G IC ND EY LR L0 L2 [B1 B2 B3]. unfold sum_sq. change total with qsum.
  rewrite (sum_seq (fun y => (y * y)%Qc) y), (sum_seq (fun y => (y * y)%Qc) y'), B1.
  assert (BD : forall i, In i (train_rows a) -> i < length y) by (intros i I; apply (B2 i I)).
  pose proof (seen_rest (train_rows a) (length y) ND BD) as PM. rewrite !(sum_swap _ _ _ PM), !map_app, !qsum_app.
  set (R := filter _ _). assert (ER : map (fun i => (nth i y' 0 * nth i y' 0)%Qc) R = map (fun i => (nth i y 0 * nth i y 0)%Qc) R).
  { apply map_ext_in. intros i I. unfold R in I. apply filter_In in I. destruct I as [_ I]. rewrite B3; auto. destruct (in_dec Nat.eq_dec i (train_rows a)); [discriminate|auto]. }
  rewrite ER. assert (HS : (qsum (map (fun i => (nth i y' 0 * nth i y' 0)%Qc) (train_rows a)) <= qsum (map (fun i => (nth i y 0 * nth i y 0)%Qc) (train_rows a)))%Qc); [|qlra].
  clear R ER PM. destruct (list_eq_dec Nat.eq_dec (train_rows a) []) as [Z|NE]; [rewrite Z; apply qle_refl|].
  set (v := fun i => match answer (tree_predict tc t (nth i (ta_data a) [])) with Ok (PReg w) => w | _ => 0%Qc end).
  assert (V : forall i, In i (train_rows a) -> answer (tree_predict tc t (nth i (ta_data a) [])) = Ok (PReg (v i))).
  { intros i I. destruct (B2 i I) as [_ (w & lr' & A & _)]. unfold v. rewrite A. reflexivity. }
  set (mu := if k =? 0 then 1%Qc else lr). assert (M0 : (0 <= mu)%Qc) by (unfold mu; destruct (k =? 0); auto; discriminate). assert (M2 : (mu <= 1 + 1)%Qc) by (unfold mu; destruct (k =? 0); auto; discriminate).
  destruct (grown_errors P M tc a t G NE IC v V) as [_ GE]. specialize (GE mu M0 M2). rewrite EY in GE. eapply qle_trans; [|exact GE].
  apply qsum_map_le. intros i I. destruct (B2 i I) as [_ (w & lr' & A & L' & E)]. rewrite (V i I) in A. injection A as <-. assert (lr' = lr) by congruence. subst lr'. cbv zeta in E.
  assert (E2 : (nth i y 0 - (if k =? 0 then v i else lr * v i) = nth i y 0 - mu * v i)%Qc) by (unfold mu; destruct (k =? 0); ring). rewrite E2 in E. rewrite E.
  destruct int; [apply trunc_sq|apply qle_refl].
Qed.

(** The rounds of a boosted fit. *)
Lemma boosted_rounds M P c f arg h e f1 h1 e1 data r la : forest_fit M P c f arg h e = Ok (f1, h1, e1) -> fit_data f arg = Some data ->
  fc_class c = false -> fc_boosting c = true -> boost_ref f arg = Some r -> nth_error h r = Some la ->
  exists L, length L = S (length (f_trees f1)) /\ nth_error L 0 = Some (la_vals la) /\
    (exists y, nth_error L (length (f_trees f1)) = Some y /\ nth_error h1 r = Some {| la_int := la_int la; la_vals := y |}) /\
    forall k tc t, nth_error (f_trees f1) k = Some (tc, t) -> exists a F y y', tc_class tc = false /\ grown P M tc a t /\ ta_data a = data /\ sampled c (length data) F (train_rows a) (train_feats a) /\
      nth_error L k = Some y /\ nth_error L (S k) = Some y' /\ ta_labels a = y /\ boost_round c k tc t data (train_rows a) (la_int la) y y'.
Proof.
  intros H D IC BO BR NL. destruct (forest_course _ _ _ _ _ _ _ _ _ _ la H) as (data' & F & g1 & hh & s & L & SD & -> & -> & V); [eauto|].
  pose proof (sd_data _ _ _ _ _ _ _ _ SD) as D'. rewrite D in D'. injection D' as <-.
  destruct (co_targets _ _ _ _ _ _ _ _ _ _ _ V BO IC) as (L1 & L2 & y & r' & Y1 & Y2 & Y3). rewrite (sd_new _ _ _ _ _ _ _ _ SD IC), BR in Y2. injection Y2 as <-.
  exists L. ands; auto; [eauto|]. intros k tc t K. destruct (co_place _ _ _ _ _ _ _ _ _ _ _ V _ _ K) as (a & A1 & A2 & A3 & A4 & A5 & AF & A6 & A7). cbn [fst snd] in *.
  destruct (A7 BO IC) as (z & z' & Z1 & Z2 & Z3 & Z4). exists a, F, z, z'. rewrite A1. ands; auto.
Qed.

Theorem residuals_shrink M P c f arg h e f1 h1 e1 data r la lr : forest_fit M P c f arg h e = Ok (f1, h1, e1) -> fit_data f arg = Some data ->
  fc_class c = false -> fc_boosting c = true -> fc_bootstrap c = false -> fc_lr c = Some lr -> (0 <= lr)%Qc -> (lr <= 1 + 1)%Qc -> boost_ref f arg = Some r -> nth_error h r = Some la ->
  exists la', nth_error h1 r = Some la' /\ (sum_sq (la_vals la') <= sum_sq (la_vals la))%Qc.
Proof.
  intros H D IC BO NB LR L0 L2 BR NL. destruct (boosted_rounds _ _ _ _ _ _ _ _ _ _ _ _ _ H D IC BO BR NL) as (L & LL & F0 & (y & YL & YH) & RD).
  eexists. split; [exact YH|]. cbn [la_vals].
  assert (ST : forall k, k <= length (f_trees f1) -> exists z, nth_error L k = Some z /\ (sum_sq z <= sum_sq (la_vals la))%Qc).
  { induction k as [|k IH]; intros K; [exists (la_vals la); split; auto; apply qle_refl|]. destruct IH as [z [Z1 Z2]]; [lia|].
    destruct (nth_error (f_trees f1) k) as [[tc t]|] eqn:E; [|apply nth_error_None in E; lia].
    destruct (RD k tc t E) as (a & F & u & u' & A1 & A2 & A3 & A4 & A5 & A6 & A7 & A8). assert (EU : u = z) by congruence. rewrite EU in *. clear EU. exists u'. split; auto.
    assert (ND : NoDup (train_rows a)) by (destruct A4 as (pool & ND & _ & _ & RP & _); rewrite NB in RP; rewrite RP; exact ND).
    eapply qle_trans; [|exact Z2]. rewrite <- A3 in A8. exact (round_shrinks P M c k tc a t _ z u' lr A2 A1 ND A7 LR L0 L2 A8). }
  destruct (ST (length (f_trees f1)) (Nat.le_refl _)) as [z [Z1 Z2]]. assert (z = y) by congruence. now subst z.
Qed.

Lemma sampled_all c N F rows feats : all_rows c -> sampled c N F rows feats -> NoDup rows /\ (forall i, In i rows -> i < N) /\ forall i, i < N -> In i rows.
Proof.
  intros (A1 & A2 & A3) (pool & ND & BD & LN & RP & _). rewrite A1 in RP. subst pool. split; auto. split; auto.
  assert (LE : length rows = N).
  { unfold rows_per_tree in LN. assert (E1 : qlt (fc_alpha_N c) 1 = false) by now apply qlt_false. assert (E2 : qlt (fc_alpha_F c) 1 = false) by now apply qlt_false. rewrite E1, E2 in LN. cbn in LN. lia. }
  intros i LI. assert (I : incl rows (seq 0 N)) by (intros j J; apply in_seq; specialize (BD j J); lia).
  assert (J : incl (seq 0 N) rows) by (apply NoDup_length_incl; [exact ND|rewrite seq_length; lia|exact I]). apply J, in_seq. lia.
Qed.

Theorem boosting_error M P c f arg h e f1 h1 e1 data r ys lr : forest_fit M P c f arg h e = Ok (f1, h1, e1) -> fit_data f arg = Some data ->
  fc_class c = false -> fc_boosting c = true -> all_rows c -> fc_lr c = Some lr -> (0 <= lr)%Qc -> (lr <= 1 + 1)%Qc ->
  boost_ref f arg = Some r -> nth_error h r = Some {| la_int := false; la_vals := ys |} -> length ys = length data ->
  forall vs : nat -> list Qc, (forall i, i < length data -> votes f1 (nth i data []) (map PReg (vs i))) ->
  let err k := sq_error ys (map (fun i => boosted lr (firstn k (vs i))) (seq 0 (length data))) in
  (forall k k', k <= k' -> (err k' <= err k)%Qc) /\ (f_trees f1 <> [] -> (err 1%nat <= rat (length ys) * variance ys)%Qc).
Proof.
  intros H D IC BO AR LR L0 L2 BR NL LY vs VT err. destruct (boosted_rounds _ _ _ _ _ _ _ _ _ _ _ _ _ H D IC BO BR NL) as (L & LL & F0 & (y & YL & YH) & RD). cbn [la_vals la_int] in *.
  set (n := length (f_trees f1)) in *. set (N := length data) in *.
  assert (LV : forall i, i < N -> length (vs i) = n) by (intros i I; pose proof (Forall2_len _ _ _ (VT i I)) as Q; rewrite map_length in Q; auto).
  assert (ST : forall k, k <= n -> exists z, nth_error L k = Some z /\ length z = N /\ forall i, i < N -> nth i z 0%Qc = (nth i ys 0 - boosted lr (firstn k (vs i)))%Qc).
  { induction k as [|k IH]; intros K.
    - exists ys. split; auto. split; auto. intros i _. cbn [firstn boosted]. ring.
    - destruct IH as [z [Z1 [Z2 Z3]]]; [lia|]. destruct (nth_error (f_trees f1) k) as [[tc t]|] eqn:E; [|apply nth_error_None in E; unfold n in K; lia].
      destruct (RD k tc t E) as (a & F & u & u' & A1 & A2 & A3 & A4 & A5 & A6 & A7 & [B1 B2 B3]). assert (EU : u = z) by congruence. rewrite EU in *. clear EU. exists u'. split; auto. split; [congruence|].
      intros i I. destruct (sampled_all _ _ _ _ _ AR A4) as [_ [_ AL]]. destruct (B2 i (AL i I)) as [_ (w & lr' & W1 & W2 & W3)]. assert (lr' = lr) by congruence. subst lr'. cbv zeta in W3. rewrite W3.
      destruct (Forall2_nth _ _ _ _ _ (VT i I) E) as [p [P1 P2]]. cbn [fst snd] in P2. rewrite W1 in P2. injection P2 as <-. rewrite nth_error_map in P1. destruct (nth_error (vs i) k) as [w'|] eqn:EW; [|discriminate]. injection P1 as ->.
      assert (FS : firstn (S k) (vs i) = firstn k (vs i) ++ [w]).
      { clear -EW. revert EW. generalize (vs i). induction k as [|k IH]; intros [|x l] EW; try discriminate; [injection EW as ->; reflexivity|]. cbn [firstn app]. f_equal. now apply IH. }
      rewrite FS, boosted_snoc, (Z3 i I). assert (FL : length (firstn k (vs i)) = k) by (rewrite firstn_length, (LV i I); lia). rewrite FL. destruct (k =? 0); ring. }
  assert (ES : forall k z, length z = N -> (forall i, i < N -> nth i z 0%Qc = (nth i ys 0 - boosted lr (firstn k (vs i)))%Qc) -> err k = sum_sq z).
  { intros k z Z2 Z3. unfold err. rewrite (sq_error_map ys (fun i => nth i ys 0%Qc)).
    - unfold sum_sq. change total with qsum. rewrite (sum_seq (fun y => (y * y)%Qc) z), Z2. f_equal. apply map_ext_in. intros i I. apply in_seq in I. rewrite Z3 by lia. reflexivity.
    - rewrite <- LY. clear. induction ys as [|x l IH]; [reflexivity|]. cbn [length seq map nth]. f_equal. rewrite <- seq_shift, map_map. exact IH. }
  assert (SAT : forall k, n <= k -> err k = err n).
  { intros k K. unfold err. f_equal. apply map_ext_in. intros i I. apply in_seq in I. rewrite !firstn_all2; auto; rewrite LV by lia; lia. }
  assert (ONE : forall k, (err (S k) <= err k)%Qc).
  { intros k. destruct (le_lt_dec n k) as [K|K]; [rewrite (SAT k), (SAT (S k)) by lia; apply qle_refl|].
    destruct (ST k ltac:(lia)) as [z [Z1 [Z2 Z3]]], (ST (S k) ltac:(lia)) as [z' [Z1' [Z2' Z3']]]. rewrite (ES k z), (ES (S k) z') by auto.
    destruct (nth_error (f_trees f1) k) as [[tc t]|] eqn:E; [|apply nth_error_None in E; unfold n in K; lia].
    destruct (RD k tc t E) as (a & F & u & u' & A1 & A2 & A3 & A4 & A5 & A6 & A7 & A8). assert (EU : u = z) by congruence. assert (EU' : u' = z') by congruence. rewrite EU, ?EU' in *. clear EU EU'. destruct (sampled_all _ _ _ _ _ AR A4) as [ND _].
    rewrite <- A3 in A8. eapply round_shrinks; eauto. }
  split.
  - intros k k' K. induction K as [|k' K IH]; [apply qle_refl|]. eapply qle_trans; [apply ONE|exact IH].
  - intros NT. destruct (ST 1) as [z' [Z1' [Z2' Z3']]]; [destruct (f_trees f1) as [|x l] eqn:Q; [contradiction|unfold n; cbn; lia]|]. rewrite (ES 1 z') by auto.
    destruct (nth_error (f_trees f1) 0) as [[tc t]|] eqn:E; [|apply nth_error_None in E; destruct (f_trees f1); [contradiction|cbn in E; lia]].
    destruct (RD 0 tc t E) as (a & F & u & u' & A1 & A2 & A3 & A4 & A5 & A6 & A7 & A8). assert (EU : u = ys) by congruence. assert (EU' : u' = z') by congruence. rewrite EU, ?EU' in *. clear EU EU'. destruct (sampled_all _ _ _ _ _ AR A4) as [ND [BD AL]].
    assert (PM : Permutation (train_rows a) (seq 0 N)). { apply NoDup_Permutation; [auto|apply seq_NoDup|]. intros x. rewrite in_seq. split; intros IX; [specialize (BD x IX); lia|apply AL; lia]. }
    destruct (Nat.eq_dec N 0) as [NZ|NZ].
    { rewrite NZ in *. assert (Y0 : ys = []) by (destruct ys; [auto|discriminate]). assert (Y1 : z' = []) by (destruct z'; [auto|discriminate]). rewrite Y0, Y1. cbn. apply qle_refl. }
    assert (NE : train_rows a <> []) by (intros Z; specialize (AL 0 ltac:(lia)); rewrite Z in AL; contradiction).
    destruct A8 as [B1 B2 B3]. set (v := fun i => match answer (tree_predict tc t (nth i (ta_data a) [])) with Ok (PReg w) => w | _ => 0%Qc end).
    assert (V : forall i, In i (train_rows a) -> answer (tree_predict tc t (nth i (ta_data a) [])) = Ok (PReg (v i))).
    { intros i I. destruct (B2 i I) as [_ (w & lr' & A & _)]. unfold v. rewrite A3, A. reflexivity. }
    destruct (grown_errors P M tc a t A2 NE A1 v V) as [GE _]. specialize (GE (qmean ys)). rewrite A7 in GE.
    unfold sum_sq. change total with qsum. rewrite (sum_seq (fun y => (y * y)%Qc) z'), Z2', <- (sum_swap _ _ _ PM).
    match goal with |- (?x <= _)%Qc => assert (EX : x = qsum (map (fun i => ((nth i ys 0 - v i) * (nth i ys 0 - v i))%Qc) (train_rows a))) end.
    { f_equal. apply map_ext_in. intros i I. destruct (B2 i I) as [_ (w & lr' & A & _ & W)]. cbv zeta in W. rewrite W. rewrite <- A3 in A. rewrite (V i I) in A. injection A as <-. cbn [Nat.eqb]. reflexivity. }
    rewrite EX. eapply qle_trans; [exact GE|]. rewrite (sum_swap _ _ _ PM). unfold variance. change rat with Nq. change total with qsum. change mean with qmean.
    rewrite Qcmult_comm, qdiv_mult by (apply Nq_neq0; lia). rewrite (sum_seq (fun y => ((y - qmean ys) * (y - qmean ys))%Qc) ys), LY. apply qle_refl.
Qed.

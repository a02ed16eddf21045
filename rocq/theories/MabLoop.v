(** The loop of the bandit solver. *)
From Coq Require Import List Arith Bool ZArith QArith Qcanon Lia Permutation Sorted.
From Verif Require Import Base Num Rng Histogram Utils Criteria Solvers Spec NumFacts ListFacts HistFacts HistAdd CritFacts ReductionFacts MakeHist SampleFacts HistProps HistProps2 ExactFacts ExactTotal DrawFacts MabFacts.
Import ListNotations.
Local Open Scope nat_scope.

(** ** Counters *)
Definition nsum (F B : nat) (ns : nat -> nat -> nat) : nat := list_sum (map (fun c => ns (fst c) (snd c)) (cells F B)).

Lemma list_sum_ext {A} (g h : A -> nat) l : (forall a, In a l -> g a = h a) -> list_sum (map g l) = list_sum (map h l).
Proof. intros H. f_equal. apply map_ext_in. auto. Qed.
Lemma list_sum_le {A} (g h : A -> nat) l : (forall a, In a l -> g a <= h a) -> list_sum (map g l) <= list_sum (map h l).
Proof. induction l; intros H; cbn; auto. specialize (IHl (fun x Hx => H x (or_intror Hx))). specialize (H a (or_introl eq_refl)). unfold list_sum in *. lia. Qed.
Lemma list_sum_lt {A} (g h : A -> nat) l x : (forall a, In a l -> g a <= h a) -> In x l -> g x < h x ->
  list_sum (map g l) < list_sum (map h l).
Proof.
  induction l as [|a l IH]; intros H I L; [destruct I|]. cbn. pose proof (H a (or_introl eq_refl)).
  assert (H' : forall a, In a l -> g a <= h a) by (intros; apply H; now right). pose proof (list_sum_le g h l H').
  unfold list_sum in *. destruct I as [<-|I]; [lia|]. specialize (IH H' I L). lia.
Qed.
Lemma list_sum_bound {A} (g : A -> nat) l n : (forall a, In a l -> g a <= n) -> list_sum (map g l) <= length l * n.
Proof. induction l; intros H; cbn; auto. specialize (IHl (fun x Hx => H x (or_intror Hx))). specialize (H a (or_introl eq_refl)). unfold list_sum in *. lia. Qed.

Lemma bump_spec d acc : forall ns f b, NoDup acc ->
  fold_left (fun m c => upd m c (m (fst c) (snd c) + d)) acc ns f b =
  ns f b + (if in_dec cell_eq_dec (f, b) acc then d else 0).
Proof.
  induction acc as [|[f0 b0] acc IH]; intros ns f b ND; cbn [fold_left]; [destruct (in_dec _ _ _) as [[]|]; lia|].
  inversion ND as [|x l NI ND']; subst. rewrite IH by auto. unfold upd at 1. cbn [fst snd].
  destruct ((f =? f0) && (b =? b0)) eqn:Q.
  - apply andb_true_iff in Q. rewrite !Nat.eqb_eq in Q. destruct Q as [-> ->].
    destruct (in_dec cell_eq_dec (f0, b0) acc) as [I|I]; [contradiction|].
    destruct (in_dec cell_eq_dec (f0, b0) ((f0, b0) :: acc)) as [I2|I2]; [lia|destruct I2; now left].
  - assert (NE : (f0, b0) <> (f, b)). { intros Z. injection Z as -> ->. rewrite !Nat.eqb_refl in Q. discriminate. }
    destruct (in_dec cell_eq_dec (f, b) acc) as [I|I], (in_dec cell_eq_dec (f, b) ((f0, b0) :: acc)) as [I2|I2]; auto.
    + destruct I2. now right.
    + destruct I2 as [I2|I2]; contradiction.
Qed.

Lemma bump_sum F B d acc ns : NoDup acc -> (forall f b, In (f, b) acc -> f < F /\ b < B) ->
  nsum F B (fold_left (fun m c => upd m c (m (fst c) (snd c) + d)) acc ns) = nsum F B ns + length acc * d.
Proof.
  intros ND R. unfold nsum.
  rewrite (list_sum_ext _ (fun c => ns (fst c) (snd c) + (if in_dec cell_eq_dec c acc then d else 0))).
  2:{ intros [f b] _. cbn [fst snd]. now apply bump_spec. }
  assert (G : forall (l : list (nat * nat)) (g h : nat * nat -> nat), list_sum (map (fun c => g c + h c) l) = list_sum (map g l) + list_sum (map h l)).
  { induction l; intros; cbn; auto. unfold list_sum in *. rewrite IHl. lia. }
  rewrite G. f_equal.
  assert (K : list_sum (map (fun c => if in_dec cell_eq_dec c acc then d else 0) (cells F B)) =
              length (filter (fun c => if in_dec cell_eq_dec c acc then true else false) (cells F B)) * d).
  { induction (cells F B) as [|c l IH]; cbn; auto. unfold list_sum in *. rewrite IH. destruct (in_dec cell_eq_dec c acc); cbn; lia. }
  rewrite K. f_equal. apply Permutation_length, NoDup_Permutation; auto. { apply NoDup_filter, cells_nodup. }
  intros [f b]. rewrite filter_In, cells_in. destruct (in_dec cell_eq_dec (f, b) acc) as [I|I]; split; try tauto; try (intros [_ Z]; discriminate).
  intros _. split; auto.
Qed.

Lemma xmin_list_total F B (m : mem2) : 0 < F -> 0 < B -> exists x, xmin_list (flat F B m) = Ok x.
Proof.
  intros HF HB. unfold flat, xmin_list. destruct (cells F B) as [|x l] eqn:E; [|cbn; eauto].
  apply (f_equal (@length _)) in E. rewrite cells_length in E. cbn in E. nia.
Qed.
Lemma argmin_total F B (m : mem2) : 0 < F -> 0 < B -> exists x, argmin (flat F B m) = Ok x.
Proof.
  intros HF HB. unfold flat, argmin. destruct (cells F B) as [|x l] eqn:E; [|cbn; eauto].
  apply (f_equal (@length _)) in E. rewrite cells_length in E. cbn in E. nia.
Qed.

Section Loop.
Context (M : math) (k : mcfg) (hs0 : list hist) (ic : bool) (cl : list Qc) (SC : static k hs0 ic cl).
Notation F := (mc_F k). Notation B := (mc_B k). Notation N := (mc_N k).
Notation data := (mc_data k). Notation labels := (mc_labels k). Notation m := (mc_measure k).
Notation arm := (is_arm hs0). Notation busy := (busy k hs0).

Record minv (s : mstate) : Prop := {
  mi_hists : hists_ok k hs0 ic cl (ms_hists s) (ms_pop s);
  mi_pop : pop_ok k (ms_pop s);
  mi_sorted : by_feature (ms_cand s);
  mi_nodup : NoDup (ms_cand s);
  mi_cand : forall f b, In (f, b) (ms_cand s) -> arm f b /\ ms_exact s f b = false;
  mi_exact : forall f b, f < F -> b < B -> ms_exact s f b = false -> arm f b;
  mi_out : forall f b, f < F -> b < B -> ~ arm f b -> ms_est s f b = PInf;
  mi_true : forall f b v, arm f b -> ms_exact s f b = true -> edge_at hs0 f b v -> ms_est s f b = Fin (true_change M k ic f v);
  mi_q : mc_repl k = false -> ms_q s + busy * left_in (ms_pop s) <= busy * N;
  mi_q2 : mc_repl k = true -> ms_q s <= nsum F B (ms_ns s);
  mi_ns : mc_repl k = true -> forall f b, f < F -> b < B ->
     ms_ns s f b <= 2 * N /\ (ms_exact s f b = false -> ms_ns s f b < N)
}.

Definition started (s : mstate) : Prop :=
  forall f b, arm f b -> exists x, ms_est s f b = Fin x /\ est_val M k hs0 ic f b x.
Definition initial (s : mstate) : Prop :=
  (forall f b, arm f b -> In (f, b) (ms_cand s) /\ ms_exact s f b = false) /\ (forall f b, ms_ns s f b = 0).

Definition in_budget (s : mstate) : Prop :=
  forall b, mc_budget k = Some b -> (Z.of_nat (ms_q s) <= Z.max 0 (b - 1))%Z.
Lemma over_false q : over_budget (mc_budget k) q = false -> forall b, mc_budget k = Some b -> (Z.of_nat q <= Z.max 0 (b - 1))%Z.
Proof. unfold over_budget. intros H b E. rewrite E in H. apply Z.leb_gt in H. lia. Qed.

(** Work left for sampling with replacement. *)
Definition todo (s : mstate) : nat :=
  list_sum (map (fun c => if ms_exact s (fst c) (snd c) then 0 else N - ms_ns s (fst c) (snd c)) (cells F B)).

(** ** The sampling block *)
Lemma sample_block_ok s s' brk : minv s -> ms_pop s <> Some [] -> ms_cand s <> [] ->
  (mc_repl k = true -> forall f b, In (f, b) (ms_cand s) -> ms_ns s f b + mc_batch k < N) ->
  initial s \/ started s ->
  sample_block M k s = Ok (s', brk) ->
  minv s' /\ started s' /\ ms_q s' <= ms_q s + busy * mc_batch k /\
  (brk = false -> in_budget s') /\
  (mc_repl k = false -> left_in (ms_pop s') < left_in (ms_pop s)) /\
  (mc_repl k = true -> todo s' < todo s) /\
  ms_q s' = ms_q s + length (f2bin (ms_cand s)) * drawn k (ms_pop s) (mc_batch k).
Proof.
  intros I NP NC NS IS H. destruct I as [I1 I2 I3 I4 I5 I6 I7 I8 I9 I10 I11].
  unfold sample_block in H. apply rbind_ok in H. destruct H as [acc [EA H]].
  assert (acc = ms_cand s) by (unfold accesses in EA; destruct (ms_cand s); [discriminate|now injection EA]). subst acc.
  apply rbind_ok in H. destruct H as [r [ER H]].
  assert (AR : forall f b, In (f, b) (ms_cand s) -> arm f b) by (intros; now apply I5).
  destruct (round_ok M k hs0 ic cl SC _ _ _ _ _ _ I1 I2 I3 AR (sc_batch _ _ _ _ SC) NP ER) as [R1 [R2 [R3 [R4 [irs [R5 [R6 [R7 R8]]]]]]]].
  apply rbind_ok in H. destruct H as [est [EE H]]. apply rbind_ok in H. destruct H as [lcb [EL H]].
  apply rbind_ok in H. destruct H as [ucb [EU H]].
  apply assign_ok in EE. destruct EE as [LA [RA ->]].
  set (acc := ms_cand s) in *. set (est := upds (ms_est s) acc (sr_ir r)) in *.
  set (ns := fold_left _ acc (ms_ns s)) in *.
  assert (VAL : forall f b, In (f, b) acc -> exists x, est f b = Fin x /\ est_val M k hs0 ic f b x).
  { intros f b J. destruct (upds_in acc (sr_ir r) (ms_est s) f b I4 LA J) as [i [J1 J2]].
    destruct (R8 i f b J1) as [x [X1 X2]]. exists x. split; auto. rewrite R5, nth_error_map, X1 in J2. cbn in J2.
    unfold est. rewrite R5. congruence. }
  assert (ST : forall f b, arm f b -> exists x, est f b = Fin x /\ est_val M k hs0 ic f b x).
  { intros f b A. destruct (in_dec cell_eq_dec (f, b) acc) as [J|J]; auto.
    destruct IS as [[IS _]|IS]; [exfalso; apply J, IS, A|]. destruct (IS f b A) as [x [X1 X2]]. exists x. split; auto.
    unfold est. rewrite upds_other; auto. }
  assert (DR : drawn k (ms_pop s) (mc_batch k) <= mc_batch k) by (unfold drawn; destruct (ms_pop s); lia).
  destruct (f2bin_count acc F I3 (fun f b J => proj1 (RA f b J))) as [_ [C2 C3]]. pose proof (f2bin_busy k hs0 ic cl SC acc I3 AR) as C1.
  assert (DP : 0 < drawn k (ms_pop s) (mc_batch k)).
  { unfold drawn. pose proof (sc_batch _ _ _ _ SC). pose proof (sc_pos _ _ _ _ SC). destruct (ms_pop s) as [[|p P]|]; [congruence| |lia].
    change (length (p :: P)) with (S (length P)). lia. }
  assert (NSV : forall f b, ns f b = ms_ns s f b + (if in_dec cell_eq_dec (f, b) acc then mc_batch k else 0)) by (intros; now apply bump_spec).
  assert (KEY : forall s1, ms_est s1 = est -> ms_ns s1 = ns -> ms_exact s1 = ms_exact s -> ms_hists s1 = sr_hists r ->
      ms_pop s1 = sr_pop r -> ms_q s1 = ms_q s + sr_q r ->
      by_feature (ms_cand s1) -> NoDup (ms_cand s1) ->
      (forall f b, In (f, b) (ms_cand s1) -> arm f b /\ ms_exact s f b = false) ->
      minv s1 /\ started s1 /\ ms_q s1 <= ms_q s + busy * mc_batch k /\
      (mc_repl k = false -> left_in (ms_pop s1) < left_in (ms_pop s)) /\
      (mc_repl k = true -> todo s1 < todo s) /\
      ms_q s1 = ms_q s + length (f2bin acc) * drawn k (ms_pop s) (mc_batch k)).
  { intros s1 Q1 Q2 Q3 Q4 Q5 Q6 Q7 Q8 Q9. split; [|split; [|split; [|split; [|split]]]].
    - constructor; rewrite ?Q1, ?Q2, ?Q3, ?Q4, ?Q5, ?Q6; auto.
      + intros f b Hf Hb NA. unfold est. rewrite upds_other; auto.
      + intros f b v A X E. unfold est. rewrite upds_other; auto. intros J. destruct (I5 f b J). congruence.
      + intros RF. specialize (I9 RF). rewrite RF in R4. rewrite R3.
        assert (length (f2bin acc) * drawn k (ms_pop s) (mc_batch k) <= busy * drawn k (ms_pop s) (mc_batch k)) by now apply Nat.mul_le_mono_r.
        rewrite <- R4 in I9. rewrite Nat.mul_add_distr_l in I9. lia.
      + intros RT. specialize (I10 RT). unfold ns. rewrite bump_sum by auto. rewrite R3.
        assert (length (f2bin acc) * drawn k (ms_pop s) (mc_batch k) <= length acc * mc_batch k) by now apply Nat.mul_le_mono. lia.
      + intros RT f b Hf Hb. rewrite NSV. destruct (I11 RT f b Hf Hb) as [G1 G2]. destruct (in_dec cell_eq_dec (f, b) acc) as [J|J].
        * specialize (NS RT f b J). split; lia.
        * split; intros; try specialize (G2 H0); lia.
    - intros f b A. rewrite Q1. auto.
    - rewrite Q6, R3. assert (length (f2bin acc) * drawn k (ms_pop s) (mc_batch k) <= busy * mc_batch k) by now apply Nat.mul_le_mono. lia.
    - intros RF. rewrite RF in R4. rewrite Q5. lia.
    - intros RT. unfold todo. rewrite Q3, Q2. destruct acc as [|[f b] acc'] eqn:EAC; [contradiction|]. rewrite <- EAC in *.
      apply (list_sum_lt _ _ _ (f, b)).
      + intros [f' b'] _. cbn [fst snd]. rewrite NSV. destruct (ms_exact s f' b'); auto. lia.
      + apply cells_in. apply RA. rewrite EAC. now left.
      + cbn [fst snd]. assert (J : In (f, b) acc) by (rewrite EAC; now left).
        rewrite (proj2 (I5 f b J)), NSV. specialize (NS RT f b J). pose proof (sc_batch _ _ _ _ SC).
        destruct (in_dec cell_eq_dec (f, b) acc); [lia|contradiction].
    - now rewrite Q6, R3. }
  destruct (over_budget (mc_budget k) (ms_q s + sr_q r)) eqn:OB.
  - injection H as <- <-. edestruct KEY as [K1 [K2 [K3 [K4 [K5 K6]]]]]; [..|refine (conj K1 (conj K2 (conj K3 (conj _ (conj K4 (conj K5 K6))))))]; cbn; auto. discriminate.
  - apply rbind_ok in H. destruct H as [lm [_ H]]. destruct (xlt (Fin 0) lm).
    + injection H as <- <-. edestruct KEY as [K1 [K2 [K3 [K4 [K5 K6]]]]]; [..|refine (conj K1 (conj K2 (conj K3 (conj _ (conj K4 (conj K5 K6))))))]; cbn; auto. discriminate.
    + apply rbind_ok in H. destruct H as [ai [_ H]]. apply rbind_ok in H. destruct H as [um [_ H]]. injection H as <- <-.
      edestruct KEY as [K1 [K2 [K3 [K4 [K5 K6]]]]]; [..|refine (conj K1 (conj K2 (conj K3 (conj _ (conj K4 (conj K5 K6))))))]; cbn [ms_cand ms_est ms_ns ms_exact ms_hists ms_pop ms_q]; auto.
      * apply by_feature_filter, cells_by_feature.
      * apply NoDup_filter, cells_nodup.
      * intros f b J. apply filter_In in J. destruct J as [J1 J2]. apply cells_in in J1. cbn [fst snd] in J2.
        rewrite !andb_true_iff, negb_true_iff in J2. split; [apply I6; tauto|tauto].
      * intros _ b E. now apply (over_false _ OB).
Qed.

(** ** The exact block *)
Lemma exact_block_ok s s' brk : minv s -> mc_repl k = true -> initial s \/ started s ->
  exact_block M k s = Ok (s', brk) ->
  minv s' /\ (initial s' /\ s' = s \/ started s') /\ ms_q s' <= ms_q s + busy * N /\
  (brk = false -> in_budget s -> in_budget s') /\ todo s' <= todo s /\
  (forall f b, f < F -> b < B -> ms_exact s' f b = false -> ms_ns s' f b + mc_batch k < N) /\
  (brk = true -> started s').
Proof.
  intros I RT IS H. destruct I as [I1 I2 I3 I4 I5 I6 I7 I8 I9 I10 I11].
  unfold exact_block in H. cbv zeta in H.
  set (acc := filter _ (cells F B)) in H.
  assert (AI : forall f b, In (f, b) acc <-> f < F /\ b < B /\ N <= ms_ns s f b + mc_batch k /\ ms_exact s f b = false).
  { intros f b. unfold acc. rewrite filter_In, cells_in. cbn [fst snd]. rewrite andb_true_iff, negb_true_iff, Nat.leb_le. tauto. }
  destruct (length acc =? 0) eqn:EZ.
  - injection H as <- <-. apply Nat.eqb_eq in EZ. assert (acc = []) by (destruct acc; [auto|discriminate]).
    split; [constructor; auto|]. split. { destruct IS as [IS|IS]; auto. } split; [lia|]. split; auto. split; auto. split.
    + intros f b Hf Hb X. destruct (le_lt_dec N (ms_ns s f b + mc_batch k)) as [G|G]; auto.
      assert (In (f, b) acc) by (apply AI; auto). rewrite H in H0. destruct H0.
    + discriminate.
  - apply Nat.eqb_neq in EZ.
    apply rbind_ok in H. destruct H as [hs [EH H]]. apply rbind_ok in H. destruct H as [r [ER H]].
    apply rbind_ok in H. destruct H as [est [EE H]]. apply rbind_ok in H. destruct H as [lcb [EL H]].
    apply rbind_ok in H. destruct H as [ucb [EU H]]. apply rbind_ok in H. destruct H as [um [_ H]].
    apply rbind_ok in H. destruct H as [lm [_ H]]. injection H as <- <-.
    apply assign_ok in EE. destruct EE as [LA [RA ->]].
    assert (BF : by_feature acc) by apply by_feature_filter, cells_by_feature.
    assert (ND : NoDup acc) by apply NoDup_filter, cells_nodup.
    assert (AR : forall f b, In (f, b) acc -> arm f b) by (intros f b J; apply AI in J; apply I6; tauto).
    destruct (empty_histograms_spec ic cl acc _ _ EH (hists_state _ _ _ _ SC _ _ I1) (cl_nodup _ _ _ _ SC)) as [EL1 [EL2 EL3]].
    assert (PN : ms_pop s = None) by (destruct (ms_pop s); auto; cbn in I2; destruct I2; congruence).
    assert (HO : hists_ok k hs0 ic cl hs None).
    { destruct I1 as [L1 I1]. split; [congruence|]. intros f h0 E0. destruct (I1 f h0 E0) as [h [J [J1 [J2 [J3 [J4 [J5 J6]]]]]]].
      destruct (in_dec Nat.eq_dec f (map fst acc)) as [K|K].
      - destruct (EL3 f K) as [h1 [h2 [K1 [K2 [K3 [K4 K5]]]]]]. rewrite J1 in K1. injection K1 as <-.
        exists h2, []. split; auto. split; [congruence|]. split; [congruence|]. split; [|split; [intros i []|discriminate]].
        apply hist_for_state; auto. apply (cl_nodup _ _ _ _ SC).
      - exists h, J. rewrite EL2 by auto. rewrite PN in J6. auto 10. }
    assert (NN : 1 <= N) by (pose proof (sc_pos _ _ _ _ SC); lia).
    destruct (round_ok M k hs0 ic cl SC _ _ _ _ _ _ HO RT BF AR NN ltac:(discriminate) ER) as [R1 [R2 [R3 [R4 _]]]].
    assert (FR : forall f h0, nth_error hs0 f = Some h0 -> In f (map fst acc) ->
       exists h, nth_error hs f = Some h /\ hist_for ic cl f h /\ h_edges h = h_edges h0).
    { intros f h0 E0 K. destruct (EL3 f K) as [h1 [h2 [K1 [K2 [K3 [K4 K5]]]]]]. exists h2. split; auto. split; auto.
      destruct I1 as [_ I1]. destruct (I1 f h0 E0) as [h [J [J1 [J2 _]]]]. congruence. }
    destruct (full_round M k hs0 ic cl SC hs acc N None [] r BF AR (le_n _) (or_introl eq_refl) FR ER) as [irs [T1 [T2 T3]]].
    set (est := upds (ms_est s) acc (sr_ir r)) in *. set (ex := upd_const (ms_exact s) acc true) in *.
    set (ns := fold_left _ acc (ms_ns s)) in *.
    assert (NSV : forall f b, ns f b = ms_ns s f b + (if in_dec cell_eq_dec (f, b) acc then N else 0)) by (intros; now apply bump_spec).
    assert (VAL : forall f b v, In (f, b) acc -> edge_at hs0 f b v -> est f b = Fin (true_change M k ic f v)).
    { intros f b v J E. destruct (upds_in acc (sr_ir r) (ms_est s) f b ND LA J) as [i [J1 J2]].
      rewrite T1, nth_error_map, (T3 i f b v J1 E) in J2. cbn in J2. unfold est. rewrite T1. congruence. }
    assert (EXV : forall f b, ex f b = false <-> ms_exact s f b = false /\ ~ In (f, b) acc).
    { intros f b. unfold ex. destruct (in_dec cell_eq_dec (f, b) acc) as [J|J].
      - rewrite upd_const_in by auto. split; [discriminate|tauto].
      - rewrite upd_const_out by auto. tauto. }
    assert (ST : started {| ms_cand := filter (fun c => xlt (lcb (fst c) (snd c)) um && negb (ex (fst c) (snd c))) (cells F B); ms_est := est;
        ms_lcb := lcb; ms_ucb := ucb; ms_ns := ns; ms_exact := ex; ms_hists := sr_hists r; ms_pop := ms_pop s; ms_q := ms_q s + sr_q r; ms_gen := ms_gen s |}).
    { intros f b A. cbn [ms_est]. destruct (in_dec cell_eq_dec (f, b) acc) as [J|J].
      - destruct (proj1 (arm_edge_at _ _ _ _ SC f b) A) as [v E]. exists (true_change M k ic f v). split; [now apply VAL|]. eapply true_est; eauto.
      - destruct IS as [[IS1 IS2]|IS].
        + exfalso. apply J. destruct acc as [|[f1 b1] ?] eqn:EAC; [cbn in EZ; lia|].
          pose proof (proj1 (AI f1 b1) (or_introl eq_refl)) as [_ [_ [G _]]]. rewrite IS2 in G. apply AI.
          destruct (arm_range _ _ _ _ SC f b A). split; auto. split; auto. rewrite IS2. split; auto. now apply IS1.
        + destruct (IS f b A) as [x [X1 X2]]. exists x. split; auto. unfold est. rewrite upds_other; auto. }
    destruct (f2bin_count acc F BF (fun f b J => proj1 (RA f b J))) as [_ [C2 C3]]. pose proof (f2bin_busy k hs0 ic cl SC acc BF AR) as C1.
    assert (DR : drawn k None N = N) by (unfold drawn; lia). rewrite DR in R3.
    split; [|split; [right; exact ST|split; [|split; [|split; [|split; [|intros _; exact ST]]]]]].
    + constructor; cbn [ms_cand ms_est ms_ns ms_exact ms_hists ms_pop ms_q]; auto.
      * rewrite PN. destruct R1 as [Z1 Z2]. split; auto. intros f h0 E0. destruct (Z2 f h0 E0) as [h [J [J1 [J2 [J3 [J4 [J5 _]]]]]]].
        exists h, J. repeat (split; auto). discriminate.
      * apply by_feature_filter, cells_by_feature.
      * apply NoDup_filter, cells_nodup.
      * intros f b J. apply filter_In in J. destruct J as [J1 J2]. apply cells_in in J1. cbn [fst snd] in J2.
        rewrite andb_true_iff, negb_true_iff in J2. destruct J2 as [_ J2]. split; auto. apply EXV in J2. apply I6; tauto.
      * intros f b Hf Hb X. apply EXV in X. apply I6; tauto.
      * intros f b Hf Hb NA. unfold est. rewrite upds_other; auto.
      * intros f b v A X E. destruct (in_dec cell_eq_dec (f, b) acc) as [J|J]; [now apply VAL|].
        unfold ex in X. rewrite upd_const_out in X by auto. unfold est. rewrite upds_other; auto.
      * congruence.
      * intros _. unfold ns. rewrite bump_sum by auto. specialize (I10 RT). rewrite R3.
        assert (length (f2bin acc) * N <= length acc * N) by now apply Nat.mul_le_mono_r. lia.
      * intros _ f b Hf Hb. rewrite NSV. destruct (I11 RT f b Hf Hb) as [G1 G2]. destruct (in_dec cell_eq_dec (f, b) acc) as [J|J].
        -- pose proof (proj1 (AI f b) J) as [_ [_ [_ J2]]]. specialize (G2 J2). split; [lia|]. intros X. apply EXV in X. tauto.
        -- split; [lia|]. intros X. apply EXV in X. destruct X as [X _]. specialize (G2 X). lia.
    + cbn [ms_q]. rewrite R3. assert (length (f2bin acc) * N <= busy * N) by now apply Nat.mul_le_mono_r. lia.
    + intros OB _ b E. apply orb_false_iff in OB. now apply (over_false _ (proj1 OB)).
    + unfold todo. cbn [ms_exact ms_ns]. apply list_sum_le. intros [f b] _. cbn [fst snd].
      destruct (ex f b) eqn:X; [lia|]. apply EXV in X. destruct X as [X X2]. rewrite X, NSV.
      destruct (in_dec cell_eq_dec (f, b) acc); [contradiction|lia].
    + cbn [ms_exact ms_ns]. intros f b Hf Hb X. apply EXV in X. destruct X as [X X2]. rewrite NSV.
      destruct (in_dec cell_eq_dec (f, b) acc); [contradiction|].
      destruct (le_lt_dec N (ms_ns s f b + mc_batch k)) as [G|G]; [|lia]. exfalso. apply X2, AI. auto.
Qed.

(** ** One iteration and the whole loop *)
Definition round_cost : nat := busy * (if mc_repl k then Nat.max N (mc_batch k) else mc_batch k).

Lemma initial_cand s : minv s -> initial s -> forall f b, In (f, b) (ms_cand s) <-> arm f b.
Proof. intros I [H _] f b. split; [intros J; now apply (mi_cand s I)|intros A; now apply H]. Qed.

Lemma body_ok s s' brk : minv s -> initial s \/ started s -> in_budget s -> 5 < length (ms_cand s) ->
  mab_body M k s = Ok (s', brk) ->
  minv s' /\ (forall b, mc_budget k = Some b -> (Z.of_nat (ms_q s') <= Z.max 0 (b - 1) + Z.of_nat round_cost)%Z) /\
  (started s' \/ ms_pop s = Some []) /\
  (brk = false -> in_budget s' /\ started s' /\
     left_in (ms_pop s') + (if mc_repl k then todo s' else 0) < left_in (ms_pop s) + (if mc_repl k then todo s else 0)).
Proof.
  intros I IS IB L5 H. unfold mab_body in H. apply rbind_ok in H. destruct H as [[s1 b1] [E1 H]].
  assert (C1 : minv s1 /\ (initial s1 /\ s1 = s \/ started s1) /\ ms_q s1 <= ms_q s + round_cost /\ (b1 = false -> in_budget s1) /\
     (mc_repl k = true -> todo s1 <= todo s) /\ (mc_repl k = false -> s1 = s) /\
     (mc_repl k = true -> forall f b, f < F -> b < B -> ms_exact s1 f b = false -> ms_ns s1 f b + mc_batch k < N) /\ (b1 = true -> started s1)).
  { unfold round_cost. destruct (mc_repl k) eqn:R.
    - destruct (exact_block_ok s s1 b1 I R IS E1) as [A1 [A2 [A3 [A4 [A5 [A6 A7]]]]]]. split; auto. split; auto. split.
      { assert (busy * N <= busy * Nat.max N (mc_batch k)) by (apply Nat.mul_le_mono_l; lia). lia. }
      split; auto. split; auto. split; [discriminate|]. split; auto.
    - injection E1 as <- <-. split; auto. split. { destruct IS; auto. } split; [lia|]. split; auto. split; [discriminate|].
      split; auto. split; discriminate. }
  destruct C1 as [I1 [IS1 [Q1 [B1 [T1 [S1 [N1 D1]]]]]]].
  assert (BUD : forall s2, ms_q s2 <= ms_q s + round_cost -> forall b, mc_budget k = Some b -> (Z.of_nat (ms_q s2) <= Z.max 0 (b - 1) + Z.of_nat round_cost)%Z).
  { intros s2 G b E. specialize (IB b E). lia. }
  assert (POPE : mc_repl k = true -> ms_pop s1 = None).
  { intros R. pose proof (mi_pop s1 I1) as P. unfold pop_ok in P. destruct (ms_pop s1); auto. destruct P; congruence. }
  destruct b1.
  - injection H as <- <-. split; auto. split; [now apply BUD|]. split; [auto|discriminate].
  - destruct (length (ms_cand s1) <=? 1) eqn:L1.
    + injection H as <- <-. split; auto. split; [now apply BUD|]. split; [|discriminate].
      destruct IS1 as [[IS1 ->]|IS1]; auto. apply Nat.leb_le in L1. lia.
    + apply Nat.leb_gt in L1.
      assert (NP : ms_pop s1 = Some [] \/ ms_pop s1 <> Some []) by (destruct (ms_pop s1) as [[|]|]; [left; reflexivity|right; discriminate..]).
      destruct NP as [NP|NP].
      * rewrite NP in H. injection H as <- <-. split; auto. split; [now apply BUD|]. split; [|discriminate].
        destruct IS1 as [[IS1 ->]|IS1]; auto.
      * assert (H' : sample_block M k s1 = Ok (s', brk)) by (destruct (ms_pop s1) as [[|]|]; [congruence|exact H..]).
        assert (NC : ms_cand s1 <> []) by (intros Z; rewrite Z in L1; cbn in L1; lia).
        assert (NS : mc_repl k = true -> forall f b, In (f, b) (ms_cand s1) -> ms_ns s1 f b + mc_batch k < N).
        { intros R f b J. destruct (mi_cand s1 I1 f b J) as [A X]. destruct (arm_range _ _ _ _ SC f b A). now apply N1. }
        assert (IS2 : initial s1 \/ started s1) by (destruct IS1 as [[? _]|?]; auto).
        destruct (sample_block_ok s1 s' brk I1 NP NC NS IS2 H') as [K1 [K2 [K3 [K4 [K5 [K6 _]]]]]].
        split; auto. split; [|split].
        -- intros b E. specialize (B1 eq_refl b E).
           assert (busy * mc_batch k <= round_cost) by (unfold round_cost; destruct (mc_repl k); apply Nat.mul_le_mono_l; lia). lia.
        -- auto.
        -- intros ->. split; auto. split; auto. destruct (mc_repl k) eqn:R.
           ++ specialize (K6 eq_refl). specialize (T1 eq_refl). rewrite (POPE eq_refl) in *.
              pose proof (mi_pop s' K1) as P. unfold pop_ok in P. destruct (ms_pop s'); [destruct P; congruence|].
              assert (left_in (ms_pop s) = 0). { pose proof (mi_pop s I) as P'. unfold pop_ok in P'. destruct (ms_pop s); [destruct P'; congruence|reflexivity]. }
              cbn [left_in]. lia.
           ++ specialize (K5 eq_refl). rewrite <- (S1 eq_refl). lia.
Qed.

(** What holds when the loop ends. *)
Record final (s : mstate) : Prop := {
  fi_inv : minv s;
  fi_budget : forall b, mc_budget k = Some b -> (Z.of_nat (ms_q s) <= Z.max 0 (b - 1) + Z.of_nat round_cost)%Z
}.

Lemma loop_ok fuel : forall s s', minv s -> initial s \/ started s -> in_budget s ->
  mab_loop M k fuel s = Ok s' ->
  final s' /\ (started s \/ (5 < length (ms_cand s) /\ ms_pop s <> Some []) -> started s').
Proof.
  assert (BASE : forall s, minv s -> in_budget s -> final s).
  { intros s I IB. split; auto. intros b E. specialize (IB b E). lia. }
  induction fuel as [|fuel IH]; intros s s' I IS IB H; cbn [mab_loop] in H; destruct (5 <? length (ms_cand s)) eqn:L5; try discriminate.
  - injection H as <-. apply Nat.ltb_ge in L5. split; auto. intros [?|[? _]]; auto. lia.
  - apply Nat.ltb_lt in L5. apply rbind_ok in H. destruct H as [[s1 brk] [E H]].
    destruct (body_ok s s1 brk I IS IB L5 E) as [K1 [K2 [K3 K4]]]. destruct brk.
    + injection H as <-. split; [constructor; auto|]. intros [ST|[_ NP]]; [|destruct K3; [auto|contradiction]].
      destruct K3 as [|K3]; auto. clear - K3 E ST I SC.
      unfold mab_body in E. apply rbind_ok in E. destruct E as [[s2 b2] [E2 E]].
      assert (mc_repl k = false). { pose proof (mi_pop s I) as P. rewrite K3 in P. cbn in P. tauto. }
      rewrite H in E2. injection E2 as <- <-. destruct (length (ms_cand s) <=? 1); [now injection E as <-|].
      rewrite K3 in E. now injection E as <-.
    + destruct (K4 eq_refl) as [Q1 [Q2 _]]. destruct (IH s1 s' K1 (or_intror Q2) Q1 H) as [Z1 Z2]. split; auto.
  - injection H as <-. apply Nat.ltb_ge in L5. split; auto. intros [?|[? _]]; auto. lia.
Qed.

(** ** Totality *)
Context (W : nat) (RW : rectangular W data) (FW : F <= W) (MO : measure_ok ic m (length (unique labels))).

Lemma rows_rect idcs X : take_idx data idcs = Ok X -> rectangular W X.
Proof.
  intros H r I. unfold take_idx in H. destruct (mapM_In _ _ _ _ H I) as [i [_ E]]. apply nth_res_ok in E. apply RW. eapply nth_error_In; eauto.
Qed.

Lemma round_total hists pop acc batch t : hists_ok k hs0 ic cl hists pop -> pop_ok k pop -> by_feature acc -> NoDup acc ->
  (forall f b, In (f, b) acc -> arm f b) -> 1 <= batch -> pop <> Some [] ->
  (pop = None -> batch < N \/ forall f h, In f (map fst acc) -> nth_error hists f = Some h -> hist_for ic cl f h) ->
  exists r, sample_targets M m data labels acc hists batch pop t = Ok r.
Proof.
  intros [HL HO] PO BF ND AR HB NP SD. pose proof (sc_N _ _ _ _ SC) as EN. pose proof (sc_pos _ _ _ _ SC) as PN.
  unfold sample_targets.
  assert (DR : exists d, draw_rows (length data) batch pop t = Ok d).
  { unfold draw_rows. destruct pop as [P|].
    - destruct (length P <=? batch) eqn:LP; cbn [rbind fst snd].
      + destruct (take_idx_total P (arange (length P))) as [l E]; [intros; now apply arange_in|]. rewrite E. cbn. eauto.
      + unfold choice_norepl. rewrite arange_length. apply Nat.leb_gt in LP.
        assert (Q : (length P <? batch) = false) by (apply Nat.ltb_ge; lia). rewrite Q. cbn [rbind].
        destruct (pick_k_spec batch (arange (length P)) t) as [rest [PP _]]; [rewrite arange_length; lia|].
        destruct (take_idx_total P (fst (pick_k batch (arange (length P)) t))) as [l E].
        { intros i I. apply arange_in. eapply Permutation_in; [apply Permutation_sym; exact PP|]. apply in_or_app. auto. }
        rewrite E. cbn. eauto.
    - destruct (length data <=? batch); [eauto|]. unfold choice_repl. rewrite arange_length.
      assert (Q : (length data =? 0) = false) by (apply Nat.eqb_neq; lia). rewrite Q. cbn [andb].
      destruct (draws_mod (length data) batch t). cbn. eauto. }
  destruct DR as [[[[idcs ps] pop'] t'] ED]. rewrite ED. cbn [rbind].
  assert (D : (forall i, In i idcs -> i < N) /\ idcs <> [] /\ (pop = None -> N <= batch -> idcs = arange (length data)) /\
     (forall I, (forall i, In i I -> i < N) -> (forall P, pop = Some P -> NoDup (I ++ P)) -> (pop = None -> batch < N \/ I = []) -> match ps with Some s => length (I ++ idcs) <= s | None => True end)).
  { destruct pop as [P|].
    - destruct (draw_rows_some _ _ _ _ _ _ _ _ ED) as [-> [rest [_ [PP LI]]]]. destruct PO as [_ [_ PV]].
      assert (VI : forall i, In i idcs -> i < N).
      { intros i I. apply PV. eapply Permutation_in; [apply Permutation_sym; exact PP|]. apply in_or_app. auto. }
      split; auto. split; [|split; [discriminate|]].
      + intros ->. destruct P; [contradiction|]. change (length (n :: P)) with (S (length P)) in LI. cbn [length] in LI. lia.
      + intros I VI' NDI _. specialize (NDI P eq_refl). rewrite <- EN, <- (seq_length N 0). apply NoDup_incl_length.
        * assert (G : NoDup ((I ++ idcs) ++ rest)). { rewrite <- app_assoc. eapply Permutation_NoDup; [|exact NDI]. now apply Permutation_app_head. }
          now apply nodup_app_l in G.
        * intros i J. apply in_seq. apply in_app_or in J. destruct J as [J|J]; [apply VI' in J|apply VI in J]; lia.
    - destruct (draw_rows_none _ _ _ _ _ _ _ ED) as [_ [VI [LI [G1 G2]]]]. split; [intros i I; rewrite EN; auto|]. split; [|split].
      + intros ->. cbn [length] in LI. lia.
      + intros _ LE. apply G1. lia.
      + intros I _ _ SB. destruct (le_lt_dec (length data) batch) as [LE|LT].
        * destruct (G1 LE) as [-> ->]. destruct (SB eq_refl) as [ | -> ]; [lia|]. cbn [app]. rewrite arange_length. auto.
        * now rewrite (G2 LT). }
  destruct D as [VI [NI [AL PS]]].
  destruct (take_idx_total data idcs) as [X EX]; [intros; rewrite <- EN; auto|]. rewrite EX. cbn [rbind].
  destruct (take_idx_total labels idcs) as [Y EY]; [intros; rewrite (sc_labels _ _ _ _ SC), <- EN; auto|]. rewrite EY. cbn [rbind].
  destruct (take_idx_nth data [] _ _ EX) as [HX _]. destruct (take_idx_nth labels 0%Qc _ _ EY) as [HY _].
  assert (EC : combine X Y = rows_at data labels idcs).
  { rewrite HX, HY. apply combine_nth_rows; [apply SC|]. intros; rewrite <- EN; auto. }
  assert (LXY : length X = length Y) by (rewrite HX, HY, !map_length; auto).
  assert (NY : Y <> []) by (rewrite HY; destruct idcs; [contradiction|discriminate]).
  assert (YIN : forall y, In y Y -> In y labels).
  { intros y J. unfold take_idx in EY. destruct (mapM_In _ _ _ _ EY J) as [i [_ E]]. apply nth_res_ok in E. eapply nth_error_In; eauto. }
  destruct (f2bin_spec acc BF) as [FL [NDK NEB]].
  set (P := fun f h => In f (map fst acc) /\ nth_error hists f = Some h).
  destruct (st_fold_total M m X Y ps P (f2bin acc) {| st_hists := hists; st_ir := []; st_cb := []; st_q := 0 |}) as [st ES]; auto.
  - intros f h bs [Hf Hn] NB NDB BB.
    assert (A : exists h0, nth_error hs0 f = Some h0 /\ h_edges h0 <> None).
    { apply in_map_iff in Hf. destruct Hf as [[f' b] [<- J]]. eapply arm_edges; eauto. }
    destruct A as [h0 [E0 NE0]]. destruct (HO f h0 E0) as [h1 [I [J1 [J2 [J3 [J4 [J5 J6]]]]]]]. rewrite Hn in J1. injection J1 as <-.
    destruct (hist_add_total h X Y W) as [h' EA]; auto.
    { eapply state_shaped; eauto. congruence. }
    { eapply rows_rect; eauto. }
    { rewrite (sf_feat _ _ _ _ _ J4). assert (f < length hs0) by (apply nth_error_Some; congruence). rewrite (sc_len _ _ _ _ SC) in H. lia. }
    { intros C y J. rewrite (sf_classes _ _ _ _ _ J4), (sc_classes _ _ _ _ SC). rewrite (sf_class _ _ _ _ _ J4) in C. rewrite C. apply unique_in. auto. }
    exists h'.
    assert (TT : exists I', state_for ic cl f (rows_at data labels I' ++ combine X Y) h' /\ h_nb h' = h_nb h /\ h_edges h' = h_edges h /\
        match ps with Some s => length (I' ++ idcs) <= s | None => True end).
    { assert (SUB : pop <> None \/ batch < N \/ hist_for ic cl f h).
      { destruct pop; [left; discriminate|right]. destruct (SD eq_refl) as [|SD']; auto. }
      destruct (hist_add_state _ _ _ _ _ _ _ _ J4 EA) as [_ [S1 [S2 [S3 _]]]].
      destruct SUB as [SUB|[SUB|SUB]].
      - exists I. repeat (split; auto). apply PS; auto. intros; contradiction.
      - exists I. repeat (split; auto). apply PS; auto.
      - pose proof (hist_for_state _ _ _ _ SUB (cl_nodup _ _ _ _ SC)) as J4'.
        destruct (hist_add_state _ _ _ _ _ _ _ _ J4' EA) as [_ [S1' _]]. exists []. repeat (split; auto). apply PS; auto.
        + intros i [].
        + intros P' ->. cbn. apply PO. }
    destruct TT as [I' [S1 [S3 [S2 LE]]]].
    destruct (h_edges h) as [edges|] eqn:Ed; [|congruence].
    pose proof (sf_rows _ _ _ _ _ S1) as SR. rewrite S2 in SR. destruct SR as [AG [LEd SR]].
    rewrite EC in *. set (T := rows_at data labels I' ++ rows_at data labels idcs) in *.
    assert (NT : T <> []). { unfold T, rows_at. destruct idcs; [contradiction|]. destruct I'; discriminate. }
    rewrite (sf_class _ _ _ _ _ S1) in SR. destruct ic eqn:C.
    + destruct SR as [CI [NDC [IN _]]].
      destruct (class_score_total M m h' edges T bs ps) as [rv Er]; auto.
      * apply S1.
      * intros b J. rewrite S3. auto.
      * rewrite (sf_classes _ _ _ _ _ S1), (sc_classes _ _ _ _ SC). exact MO.
      * eauto.
    + destruct SR as [RC1 [RC2 [RC3 [RC4 RC5]]]].
      destruct (regr_score_total M m h' (length T) bs ps) as [rv Er]; auto.
      * apply S1.
      * split; auto. intros b Hb. rewrite <- LEd in Hb. destruct (nth_error edges b) as [e|] eqn:Ee; [|apply nth_error_None in Ee; lia].
        destruct (RC1 b e Ee) as [[l [L1 [L2 _]]] [r [R1 [R2 _]]]]. exists l, r. split; auto. split; auto. rewrite L2, R2. apply parts_length.
      * destruct T; [contradiction|cbn; lia].
      * intros b J. rewrite S3. auto.
      * unfold T, rows_at. rewrite app_length, !map_length. rewrite app_length in LE. exact LE.
      * eauto.
  - intros f bs J. split; [apply (NEB _ J)|]. destruct (flatten_group acc _ f bs FL ND J) as [G1 G2]. split; auto.
    cbn [st_hists]. destruct bs as [|b bs']; [specialize (NEB _ J); cbn in NEB; contradiction|].
    destruct (AR f b (G2 b (or_introl eq_refl))) as [h0 [E0 _]].
    destruct (HO f h0 E0) as [h [I [J1 [J2 [J3 _]]]]]. exists h. split; auto. split.
    + split; auto. apply in_map_iff. exists (f, b). split; auto. apply G2. now left.
    + intros b' K. destruct (AR f b' (G2 b' K)) as [h0' [E0' Hb']]. rewrite E0 in E0'. injection E0' as <-. congruence.
  - rewrite ES. cbn [rbind]. eauto.
Qed.

Lemma assign_total mm acc vals : length acc = length vals -> (forall f b, In (f, b) acc -> f < F /\ b < B) ->
  exists m', assign F B mm acc vals = Ok m'.
Proof.
  intros L R. unfold assign. rewrite L, Nat.eqb_refl. cbn [guard rbind]. apply in_range_spec in R. rewrite R. cbn. eauto.
Qed.

Lemma sample_block_total s : minv s -> ms_pop s <> Some [] -> ms_cand s <> [] ->
  (mc_repl k = true -> mc_batch k < N) -> exists r, sample_block M k s = Ok r.
Proof.
  intros I NP NC SB. destruct I as [I1 I2 I3 I4 I5 I6 I7 I8 I9 I10 I11]. unfold sample_block.
  assert (EA : accesses (ms_cand s) = Ok (ms_cand s)) by (unfold accesses; destruct (ms_cand s); [contradiction|auto]).
  rewrite EA. cbn [rbind].
  assert (AR : forall f b, In (f, b) (ms_cand s) -> arm f b) by (intros; now apply I5).
  destruct (round_total (ms_hists s) (ms_pop s) (ms_cand s) (mc_batch k) (ms_gen s) I1 I2 I3 I4 AR (sc_batch _ _ _ _ SC) NP) as [r ER].
  { intros E. left. apply SB. rewrite E in I2. exact I2. }
  rewrite ER. cbn [rbind].
  destruct (round_ok M k hs0 ic cl SC _ _ _ _ _ _ I1 I2 I3 AR (sc_batch _ _ _ _ SC) NP ER) as [_ [_ [_ [_ [irs [R5 [R6 [R7 _]]]]]]]].
  assert (RG : forall f b, In (f, b) (ms_cand s) -> f < F /\ b < B) by (intros f b J; eapply arm_range; eauto).
  assert (LI : length (sr_ir r) = length (ms_cand s)) by now rewrite R5, map_length.
  destruct (assign_total (ms_est s) (ms_cand s) (sr_ir r)) as [est E1]; auto. rewrite E1. cbn [rbind].
  destruct (assign_total (ms_lcb s) (ms_cand s) (sub_const (sr_ir r) (sr_cb r))) as [lcb E2]; auto.
  { unfold sub_const. rewrite map_length, combine_length, LI, R7. lia. } rewrite E2. cbn [rbind].
  destruct (assign_total (ms_ucb s) (ms_cand s) (add_const (sr_ir r) (sr_cb r))) as [ucb E3]; auto.
  { unfold add_const. rewrite map_length, combine_length, LI, R7. lia. } rewrite E3. cbn [rbind].
  destruct (over_budget _ _); [eauto|].
  assert (FB : 0 < F /\ 0 < B). { destruct (ms_cand s) as [|[f b] l]; [contradiction|]. destruct (RG f b (or_introl eq_refl)). lia. }
  destruct FB as [HF HB].
  destruct (xmin_list_total F B lcb HF HB) as [lm E4]. rewrite E4. cbn [rbind]. destruct (xlt (Fin 0) lm); [eauto|].
  destruct (argmin_total F B est HF HB) as [ai E5]. rewrite E5. cbn [rbind].
  destruct (xmin_list_total F B ucb HF HB) as [um E6]. rewrite E6. cbn [rbind]. eauto.
Qed.

Lemma exact_block_total s : minv s -> mc_repl k = true -> exists r, exact_block M k s = Ok r.
Proof.
  intros I RT. destruct I as [I1 I2 I3 I4 I5 I6 I7 I8 I9 I10 I11]. unfold exact_block. cbv zeta.
  set (acc := filter _ (cells F B)).
  destruct (length acc =? 0) eqn:EZ; [eauto|]. apply Nat.eqb_neq in EZ.
  assert (AI : forall f b, In (f, b) acc -> f < F /\ b < B /\ ms_exact s f b = false).
  { intros f b J. unfold acc in J. apply filter_In in J. destruct J as [J1 J2]. apply cells_in in J1. cbn [fst snd] in J2.
    rewrite andb_true_iff, negb_true_iff in J2. tauto. }
  assert (BF : by_feature acc) by apply by_feature_filter, cells_by_feature.
  assert (ND : NoDup acc) by apply NoDup_filter, cells_nodup.
  assert (AR : forall f b, In (f, b) acc -> arm f b) by (intros f b J; apply AI in J; apply I6; tauto).
  destruct (empty_histograms_total acc (ms_hists s)) as [hs EH].
  { intros f b J. destruct (arm_edges _ _ _ _ SC f b (AR f b J)) as [h0 [E0 NE0]]. destruct I1 as [_ I1].
    destruct (I1 f h0 E0) as [h [J' [J1 [J2 _]]]]. exists h. split; auto. congruence. }
  rewrite EH. cbn [rbind].
  destruct (empty_histograms_spec ic cl acc _ _ EH (hists_state _ _ _ _ SC _ _ I1) (cl_nodup _ _ _ _ SC)) as [EL1 [EL2 EL3]].
  assert (PN : ms_pop s = None) by (destruct (ms_pop s); auto; cbn in I2; destruct I2; congruence).
  assert (HO : hists_ok k hs0 ic cl hs None).
  { destruct I1 as [L1 I1]. split; [congruence|]. intros f h0 E0. destruct (I1 f h0 E0) as [h [J [J1 [J2 [J3 [J4 [J5 J6]]]]]]].
    destruct (in_dec Nat.eq_dec f (map fst acc)) as [K|K].
    - destruct (EL3 f K) as [h1 [h2 [K1 [K2 [K3 [K4 K5]]]]]]. rewrite J1 in K1. injection K1 as <-.
      exists h2, []. split; auto. split; [congruence|]. split; [congruence|]. split; [|split; [intros i []|discriminate]].
      apply hist_for_state; auto. apply (cl_nodup _ _ _ _ SC).
    - exists h, J. rewrite EL2 by auto. rewrite PN in J6. auto 10. }
  assert (NN : 1 <= N) by (pose proof (sc_pos _ _ _ _ SC); lia).
  destruct (round_total hs None acc N [] HO RT BF ND AR NN ltac:(discriminate)) as [r ER].
  { intros _. right. intros f h J E. destruct (EL3 f J) as [h1 [h2 [K1 [K2 [K3 _]]]]]. rewrite E in K2. injection K2 as <-. auto. }
  rewrite ER. cbn [rbind].
  destruct (round_ok M k hs0 ic cl SC _ _ _ _ _ _ HO RT BF AR NN ltac:(discriminate) ER) as [_ [_ [_ [_ [irs [R5 [R6 _]]]]]]].
  assert (RG : forall f b, In (f, b) acc -> f < F /\ b < B) by (intros f b J; eapply arm_range; eauto).
  assert (LI : length acc = length (sr_ir r)) by now rewrite R5, map_length.
  destruct (assign_total (ms_est s) acc (sr_ir r) LI RG) as [est E1]. rewrite E1. cbn [rbind].
  destruct (assign_total (ms_lcb s) acc (sr_ir r) LI RG) as [lcb E2]. rewrite E2. cbn [rbind].
  destruct (assign_total (ms_ucb s) acc (sr_ir r) LI RG) as [ucb E3]. rewrite E3. cbn [rbind].
  assert (FB : 0 < F /\ 0 < B). { destruct acc as [|[f b] l]; [cbn in EZ; lia|]. destruct (RG f b (or_introl eq_refl)). lia. }
  destruct FB as [HF HB].
  destruct (xmin_list_total F B ucb HF HB) as [um E4]. rewrite E4. cbn [rbind].
  destruct (xmin_list_total F B lcb HF HB) as [lm E5]. rewrite E5. cbn [rbind]. eauto.
Qed.

Lemma body_total s : minv s -> initial s \/ started s -> exists r, mab_body M k s = Ok r.
Proof.
  intros I IS. unfold mab_body.
  assert (E1 : exists s1 b1, (if mc_repl k then exact_block M k s else Ok (s, false)) = Ok (s1, b1) /\ minv s1 /\
     (mc_repl k = true -> forall f b, f < F -> b < B -> ms_exact s1 f b = false -> ms_ns s1 f b + mc_batch k < N)).
  { destruct (mc_repl k) eqn:R.
    - destruct (exact_block_total s I R) as [[s1 b1] E]. destruct (exact_block_ok s s1 b1 I R IS E) as [A1 [A2 [A3 [A4 [A5 [A6 A7]]]]]].
      exists s1, b1. auto.
    - exists s, false. split; auto. split; auto. discriminate. }
  destruct E1 as [s1 [b1 [E1 [I1 N1]]]]. rewrite E1. cbn [rbind]. destruct b1; [eauto|].
  destruct (length (ms_cand s1) <=? 1) eqn:L1; [eauto|]. apply Nat.leb_gt in L1.
  assert (NC : ms_cand s1 <> []) by (intros Z; rewrite Z in L1; cbn in L1; lia).
  assert (SB : mc_repl k = true -> mc_batch k < N).
  { intros R. destruct (ms_cand s1) as [|[f b] l] eqn:EC; [contradiction|].
    destruct (mi_cand s1 I1 f b) as [A X]; [rewrite EC; now left|]. destruct (arm_range _ _ _ _ SC f b A).
    specialize (N1 R f b H H0 X). lia. }
  destruct (ms_pop s1) as [[|p P]|] eqn:EP; [eauto| |].
  - apply sample_block_total; auto. rewrite EP. discriminate.
  - apply sample_block_total; auto. rewrite EP. discriminate.
Qed.

Lemma loop_total fuel : forall s, minv s -> initial s \/ started s -> in_budget s ->
  left_in (ms_pop s) + (if mc_repl k then todo s else 0) < fuel ->
  exists s', mab_loop M k fuel s = Ok s'.
Proof.
  induction fuel as [|fuel IH]; intros s I IS IB L; [lia|]. cbn [mab_loop].
  destruct (5 <? length (ms_cand s)) eqn:L5; [|eauto]. apply Nat.ltb_lt in L5.
  destruct (body_total s I IS) as [[s1 brk] E]. rewrite E. cbn [rbind]. destruct brk; [eauto|].
  destruct (body_ok s s1 false I IS IB L5 E) as [K1 [_ [_ K4]]]. destruct (K4 eq_refl) as [Q1 [Q2 Q3]].
  apply IH; auto. lia.
Qed.
End Loop.

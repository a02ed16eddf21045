(** Facts about the answers of the bandit solver. *)
From Coq Require Import List Arith Bool ZArith QArith Qcanon Lia Permutation Sorted.
From Verif Require Import Base Num Rng Histogram Utils Criteria Solvers Spec SolverSpec NumFacts ListFacts HistFacts HistAdd CritFacts ReductionFacts MakeHist SampleFacts HistProps HistProps2 ExactFacts ExactTotal ExactProps DrawFacts MabFacts MabLoop MabProps MabMore MabSim.
Import ListNotations.
Local Open Scope nat_scope.

(** Everything known of a finished run. *)
Lemma mab_finished M c eps repl budget batch data labels mir W e0 out e1 :
  solvable c data labels W -> 1 <= batch ->
  solve_mab M c eps repl budget batch data labels mir e0 = Ok (out, e1) ->
  exists E mh s f b v,
    let k := mab_cfg c eps repl budget batch data labels mir W in
    let ic := s_class c in
    let hs := mh_hists mh in
    let s0 := mab_init c repl data W (e_mem e0 (e_calls e0)) mh (e_gen e0) in
    (forall f, f < W -> candidates (s_bin c) (nbins c data) (s_minmax c) data f (E f)) /\
    (forall f, E f = edges_of hs f) /\
    make_histograms (s_class c) data labels (s_minmax c) (s_dd c) (s_bin c) (s_nb c) (e_np e0) = Ok mh /\
    mab_loop M k (mab_fuel W (s_nb c) (length data)) s0 = Ok s /\
    static k hs ic (if ic then unique labels else []) /\
    final M k hs ic (if ic then unique labels else []) s /\
    (5 < arm_count W E -> started M k hs ic s) /\
    f < W /\ b < s_nb c /\ (nth_error (E f) b = Some v \/ xlt (ms_est s f b) (Fin mir) = false) /\
    (started M k hs ic s -> nth_error (E f) b = Some v /\ exists x, ms_est s f b = Fin x /\ est_val M k hs ic f b x /\
       forall f' b' v', f' < W -> nth_error (E f') b' = Some v' -> xle (ms_est s f b) (ms_est s f' b') = true) /\
    out = (if xlt (ms_est s f b) (Fin mir) then Found f v (ms_est s f b) (ms_q s) else NoSplit (ms_q s)).
Proof.
  intros S HB H. destruct (mab_run _ _ _ _ _ _ _ _ _ _ _ _ _ S H) as [NI [mh [s [best [f [b [h [v [e [EM [EL [EB [IB [E1 [E2 [E3 [EO _]]]]]]]]]]]]]]]]].
  exists (edges_of (mh_hists mh)), mh, s, f, b, v. cbv zeta.
  pose proof EM as EM'. rewrite <- (mab_bins c data NI) in EM'. destruct (sv_candidates _ _ _ _ S mh _ EM') as [_ HC].
  set (k := mab_cfg c eps repl budget batch data labels mir W) in *.
  pose proof (mab_static c eps repl budget batch data labels mir W S NI HB mh _ EM) as ST. fold k in ST.
  pose proof (mab_minv M c eps repl budget batch data labels mir W S NI HB mh _ EM (e_mem e0 (e_calls e0)) (e_gen e0)) as I0. fold k in I0.
  pose proof (mab_initial M c eps repl budget batch data labels mir W S NI HB mh _ EM (e_mem e0 (e_calls e0)) (e_gen e0)) as IN0.
  destruct (loop_ok M k (mh_hists mh) (s_class c) _ ST _ _ _ I0 (or_introl IN0) (mab_in_budget _ _ _ _ _ _ _ _ _ HB _ _ _) EL) as [FI SS].
  split; [intros; now apply HC|]. split; auto. split; auto. split; auto. split; auto. split; auto. split.
  { intros L5. apply SS. right. split.
    - now rewrite (mab_count c eps repl budget batch data labels mir W S NI HB mh _ EM).
    - cbn. destruct repl; [discriminate|]. intros Z. injection Z as Z. apply (f_equal (@length _)) in Z. rewrite arange_length in Z.
      pose proof (sc_pos _ _ _ _ ST) as P. cbn in *. lia. }
  assert (RG : f < W /\ b < s_nb c).
  { unfold best_cells in EB. apply rbind_ok in EB. destruct EB as [mn [_ EB]]. injection EB as <-. apply filter_In in IB. destruct IB as [IB _]. now apply cells_in in IB. }
  destruct RG as [Hf Hb]. split; auto. split; auto.
  assert (EV : is_arm (mh_hists mh) f b -> nth_error (edges_of (mh_hists mh) f) b = Some v).
  { intros A. pose proof A as A'. destruct A as [h0 [E0 _]]. destruct (fi_inv _ _ _ _ _ _ FI) as [[_ HO] _ _ _ _ _ _ _ _ _ _].
    destruct (HO f h0 E0) as [h' [I [J1 [J2 _]]]]. rewrite E1 in J1. injection J1 as <-.
    unfold edges_of. rewrite E0, <- J2, E2. exact E3. }
  split; [|split; auto].
  - destruct (arm_dec (mh_hists mh) f b) as [A|A]; [left; auto|right].
    rewrite (mi_out _ _ _ _ _ _ (fi_inv _ _ _ _ _ _ FI) f b Hf Hb A). reflexivity.
  - intros STD. assert (OUT := mi_out _ _ _ _ _ _ (fi_inv _ _ _ _ _ _ FI)).
    destruct (best_cells_spec _ _ _ _ EB) as [NB [m [_ [_ [BI BL]]]]].
    { intros f' b' Hf' Hb'. destruct (arm_dec (mh_hists mh) f' b') as [A|A].
      - destruct (STD f' b' A) as [x [-> _]]. reflexivity.
      - now rewrite OUT. }
    destruct (BI f b IB) as [_ [_ Hm]].
    assert (RNG : forall f' b' v', f' < W -> nth_error (edges_of (mh_hists mh) f') b' = Some v' -> b' < s_nb c).
    { intros f' b' v' Hf' N. destruct (HC f' Hf') as [_ L]. rewrite (mab_bins c data NI) in L. eapply Nat.lt_le_trans; [|exact L]. apply nth_error_Some. congruence. }
    assert (ALL : forall f' b' v', f' < W -> nth_error (edges_of (mh_hists mh) f') b' = Some v' -> xle (ms_est s f b) (ms_est s f' b') = true).
    { intros f' b' v' Hf' N. rewrite Hm. apply BL; eauto. }
    assert (A : is_arm (mh_hists mh) f b).
    { destruct (arm_dec (mh_hists mh) f b) as [A|A]; auto. exfalso.
      (* some arm exists *)
      destruct (nth_error (edges_of (mh_hists mh) f) b) as [v0|] eqn:Z.
      - apply A, (mab_arm c eps repl budget batch data labels mir W S NI HB mh _ EM). eauto.
      - unfold edges_of in Z. destruct (nth_error (mh_hists mh) f) as [h0|] eqn:E0.
        + destruct (fi_inv _ _ _ _ _ _ FI) as [[_ HO] _ _ _ _ _ _ _ _ _ _].
          destruct (HO f h0 E0) as [h' [I [J1 [J2 _]]]]. rewrite E1 in J1. injection J1 as <-. rewrite <- J2, E2 in Z. congruence.
        + apply nth_error_None in E0. pose proof (sc_len _ _ _ _ ST) as LL. cbn in LL. lia. }
    split; auto. destruct (STD f b A) as [x [X1 X2]]. exists x. auto.
Qed.

(** A returned split is usable, with any number of arms. *)
Lemma mab_usable M c eps repl budget batch data labels mir W e0 f v r q e1 :
  solvable c data labels W -> 1 <= batch ->
  solve_mab M c eps repl budget batch data labels mir e0 = Ok (Found f v r q, e1) ->
  f < W /\ (exists E, candidates (s_bin c) (nbins c data) (s_minmax c) data f E /\ In v E) /\ below r mir.
Proof.
  intros S HB H. destruct (mab_finished _ _ _ _ _ _ _ _ _ _ _ _ _ S HB H) as [E [mh [s [f' [b [v' [HC [HE [EM [EL [ST [FI [SS [Hf [Hb [EV [_ EO]]]]]]]]]]]]]]]]].
  cbn beta zeta in *. destruct (xlt (ms_est s f' b) (Fin mir)) eqn:X; [|discriminate]. injection EO as -> -> -> ->.
  split; auto. split.
  - exists (E f'). split; auto. destruct EV as [EV|EV]; [|discriminate]. eapply nth_error_In; eauto.
  - destruct (ms_est s f' b); cbn in X; try discriminate; [right|left; auto]. exists q. split; auto. now apply qlt_spec.
Qed.

(** Queries. *)
Lemma mab_queries_norepl M c eps budget batch data labels mir W e0 out e1 :
  solvable c data labels W -> 1 <= batch ->
  solve_mab M c eps false budget batch data labels mir e0 = Ok (out, e1) ->
  exists E, (forall f, f < W -> candidates (s_bin c) (nbins c data) (s_minmax c) data f (E f)) /\
    sres_q out <= length data * length (busy_features W E).
Proof.
  intros S HB H. pose proof (mab_run _ _ _ _ _ _ _ _ _ _ _ _ _ S H) as [NI _].
  destruct (mab_finished _ _ _ _ _ _ _ _ _ _ _ _ _ S HB H) as [E [mh [s [f' [b [v' [HC [HE [EM [EL [ST [FI [SS [Hf [Hb [EV [_ EO]]]]]]]]]]]]]]]]].
  cbn beta zeta in *. exists E. split; auto.
  pose proof (mi_q _ _ _ _ _ _ (fi_inv _ _ _ _ _ _ FI) eq_refl) as Q. cbn [mc_N mab_cfg] in Q.
  rewrite (mab_busy c eps false budget batch data labels mir W S NI HB mh _ EM) in Q.
  assert (BE : busy_features W E = busy_features W (edges_of (mh_hists mh))).
  { unfold busy_features. apply filter_ext. intros. now rewrite HE. }
  rewrite BE. assert (SQ : sres_q out = ms_q s) by (rewrite EO; destruct (xlt _ _); reflexivity). rewrite SQ. lia.
Qed.

Lemma mab_queries_repl M c eps budget batch data labels mir W e0 out e1 :
  solvable c data labels W -> 1 <= batch ->
  solve_mab M c eps true budget batch data labels mir e0 = Ok (out, e1) ->
  sres_q out <= 2 * length data * (W * s_nb c).
Proof.
  intros S HB H.
  destruct (mab_finished _ _ _ _ _ _ _ _ _ _ _ _ _ S HB H) as [E [mh [s [f' [b [v' [HC [HE [EM [EL [ST [FI [SS [Hf [Hb [EV [_ EO]]]]]]]]]]]]]]]]].
  cbn beta zeta in *. pose proof (mi_q2 _ _ _ _ _ _ (fi_inv _ _ _ _ _ _ FI) eq_refl) as Q. cbn [mc_F mc_B mab_cfg] in Q.
  assert (SQ : sres_q out = ms_q s) by (rewrite EO; destruct (xlt _ _); reflexivity). rewrite SQ.
  eapply Nat.le_trans; [exact Q|]. unfold nsum. eapply Nat.le_trans; [apply (list_sum_bound _ _ (2 * length data))|].
  - intros [f0 b0] I. apply cells_in in I. destruct I. apply (mi_ns _ _ _ _ _ _ (fi_inv _ _ _ _ _ _ FI) eq_refl f0 b0); auto.
  - rewrite cells_length. lia.
Qed.

Lemma mab_budget M c eps repl b batch data labels mir W e0 out e1 :
  solvable c data labels W -> 1 <= batch ->
  solve_mab M c eps repl (Some b) batch data labels mir e0 = Ok (out, e1) ->
  exists E, (forall f, f < W -> candidates (s_bin c) (nbins c data) (s_minmax c) data f (E f)) /\
   (Z.of_nat (sres_q out) <= Z.max 0 (b - 1) +
     Z.of_nat (length (busy_features W E) * (if repl then Nat.max (length data) batch else batch)))%Z.
Proof.
  intros S HB H. pose proof (mab_run _ _ _ _ _ _ _ _ _ _ _ _ _ S H) as [NI _].
  destruct (mab_finished _ _ _ _ _ _ _ _ _ _ _ _ _ S HB H) as [E [mh [s [f' [b' [v' [HC [HE [EM [EL [ST [FI [SS [Hf [Hb [EV [_ EO]]]]]]]]]]]]]]]]].
  cbn beta zeta in *. exists E. split; auto.
  pose proof (fi_budget _ _ _ _ _ _ FI b eq_refl) as Q. unfold round_cost in Q.
  rewrite (mab_busy c eps repl (Some b) batch data labels mir W S NI HB mh _ EM) in Q. cbn [mc_repl mc_N mc_batch mab_cfg] in Q.
  assert (BE : busy_features W E = busy_features W (edges_of (mh_hists mh))).
  { unfold busy_features. apply filter_ext. intros. now rewrite HE. }
  rewrite BE. assert (SQ : sres_q out = ms_q s) by (rewrite EO; destruct (xlt _ _); reflexivity). rewrite SQ. exact Q.
Qed.

(** The reported reduction is measured on a sample of the rows. *)
Lemma mab_sampled M c eps repl budget batch data labels mir W e0 out e1 :
  solvable c data labels W -> 1 <= batch ->
  solve_mab M c eps repl budget batch data labels mir e0 = Ok (out, e1) ->
  exists E, (forall f, f < W -> candidates (s_bin c) (nbins c data) (s_minmax c) data f (E f)) /\
    (5 < arm_count W E ->
     match out with
     | Found f v r q => f < W /\ In v (E f) /\ exists x, r = Fin x /\ (x < mir)%Qc /\
         (s_class c = true -> exists I, some_rows data I /\ (repl = false -> NoDup I) /\
            x = reduction (impurity M c) (picked data labels I) f v)
     | NoSplit _ => True
     end).
Proof.
  intros S HB H.
  destruct (mab_finished _ _ _ _ _ _ _ _ _ _ _ _ _ S HB H) as [E [mh [s [f' [b [v' [HC [HE [EM [EL [ST [FI [SS [Hf [Hb [EV [BEST EO]]]]]]]]]]]]]]]]].
  cbn beta zeta in *. exists E. split; auto. intros L5. specialize (SS L5). destruct (BEST SS) as [EV' [x [X1 [X2 _]]]].
  rewrite EO. rewrite X1. cbn [xlt]. destruct (qlt x mir) eqn:Q; auto. split; auto. split; [eapply nth_error_In; eauto|].
  exists x. split; auto. split; [now apply qlt_spec|]. intros IC. destruct X2 as [I [I1 [I2 [I3 I4]]]].
  exists I. split; [split; auto|]. split; auto.
  rewrite picked_rows by (auto; apply S).
  assert (EA : edge_at (mh_hists mh) f' b v') by (apply edge_at_edges; now rewrite <- HE).
  rewrite (I4 IC v' EA). f_equal. cbn [mc_measure mab_cfg]. unfold impurity, class_imp. now rewrite IC.
Qed.

(** ** The solver answers *)
Lemma candidates_length bt B mm data f E E' : bt <> IDENTITY ->
  candidates bt B mm data f E -> candidates bt B mm data f E' -> length E = length E'.
Proof.
  destruct bt; cbn; try tauto.
  - intros _ [a [b [R D]]] [a' [b' [R' D']]]. destruct (range_unique _ _ _ _ _ _ _ R R') as [<- <-].
    destruct D as [[? ->]|[? ->]], D' as [[? ->]|[? ->]]; auto; contradiction.
  - intros _ [a [b [_ [_ [L _]]]]] [a' [b' [_ [_ [L' _]]]]]. congruence.
Qed.

Lemma mab_answers M c eps repl budget batch data labels mir W e0 E :
  solvable c data labels W -> s_bin c <> IDENTITY -> 1 <= batch ->
  (forall f, f < W -> candidates (s_bin c) (nbins c data) (s_minmax c) data f (E f)) ->
  5 < arm_count W E ->
  exists out e1, solve_mab M c eps repl budget batch data labels mir e0 = Ok (out, e1).
Proof.
  intros S NI HB HE L5.
  assert (BT : s_bin c = LINEAR \/ s_bin c = IDENTITY \/ s_bin c = RANDOM) by apply (sv_type _ _ _ _ S).
  pose proof (sv_config _ _ _ _ S) as GC. change (bins_of c (length data)) with (nbins c data) in GC. rewrite (mab_bins c data NI) in GC.
  assert (W1 : 0 < W). { destruct W; [cbn in L5; lia|lia]. }
  assert (B1 : 1 <= s_nb c). { pose proof (sv_bins _ _ _ _ S) as SB. destruct (s_bin c); try contradiction; lia. }
  destruct (make_histograms_total (s_class c) data labels (s_minmax c) (s_dd c) (s_bin c) (s_nb c) (e_np e0) W (sv_rect _ _ _ _ S)) as [mh EM]; auto.
  all: try apply S. { apply sv_covers with (c := c) (data := data) (labels := labels); auto. }
  set (k := mab_cfg c eps repl budget batch data labels mir W).
  pose proof (mab_static c eps repl budget batch data labels mir W S NI HB mh _ EM) as ST. fold k in ST.
  pose proof (mab_minv M c eps repl budget batch data labels mir W S NI HB mh _ EM (e_mem e0 (e_calls e0)) (e_gen e0)) as I0. fold k in I0.
  pose proof (mab_initial M c eps repl budget batch data labels mir W S NI HB mh _ EM (e_mem e0 (e_calls e0)) (e_gen e0)) as IN0.
  pose proof (mab_in_budget c eps repl budget batch data labels mir W HB mh (e_mem e0 (e_calls e0)) (e_gen e0)) as IB0. fold k in IB0.
  set (s0 := mab_init c repl data W (e_mem e0 (e_calls e0)) mh (e_gen e0)) in *.
  assert (FUEL : left_in (ms_pop s0) + (if mc_repl k then todo k s0 else 0) < mab_fuel W (s_nb c) (length data)).
  { unfold mab_fuel. cbn [mc_repl k mab_cfg s0 mab_init ms_pop]. destruct repl.
    - cbn [left_in]. unfold todo. cbn [mc_N mc_F mc_B k mab_cfg].
      match goal with |- _ + list_sum (map ?g ?l) < _ => pose proof (list_sum_bound g l (length data)) as LB end.
      rewrite cells_length in LB. assert (G : forall a b, a <= b -> 0 + a < b + length data + 2) by lia. apply G, LB.
      intros a _. destruct (ms_exact _ _ _); lia.
    - cbn [left_in]. rewrite arange_length. lia. }
  destruct (loop_total M k (mh_hists mh) (s_class c) _ ST W (sv_rect _ _ _ _ S) (le_n _) (sv_measure_ok _ _ _ _ S) _ s0 I0 (or_introl IN0) IB0 FUEL) as [s EL].
  destruct (loop_ok M k (mh_hists mh) (s_class c) _ ST _ _ _ I0 (or_introl IN0) IB0 EL) as [FI SS].
  pose proof EM as EM'. rewrite <- (mab_bins c data NI) in EM'. destruct (sv_candidates _ _ _ _ S mh _ EM') as [_ HC].
  assert (CNT : arm_count W (edges_of (mh_hists mh)) = arm_count W E).
  { unfold arm_count. apply list_sum_ext. intros f I. apply in_seq in I. eapply candidates_length; [exact NI|apply HC; lia|apply HE; lia]. }
  assert (L5' : 5 < length (ms_cand s0)).
  { unfold s0. rewrite (mab_count c eps repl budget batch data labels mir W S NI HB mh _ EM). lia. }
  assert (STD : started M k (mh_hists mh) (s_class c) s).
  { apply SS. right. split; auto. cbn. destruct repl; [discriminate|]. intros Z. injection Z as Z. apply (f_equal (@length _)) in Z.
    rewrite arange_length in Z. pose proof (sc_pos _ _ _ _ ST) as P. cbn in *. lia. }
  apply (mab_run_total M c eps repl budget batch data labels mir W e0 mh s S NI EM); auto.
  { apply in_range_spec. intros f b I. rewrite (proj1 (mab_not c data labels W S NI mh _ EM)) in I.
    apply not_of_in in I. destruct I as [h [Eh Hb]]. split; [|lia]. pose proof (sc_len _ _ _ _ ST) as LL. cbn in LL. rewrite <- LL. apply nth_error_Some. congruence. }
  destruct (best_cells_total W (s_nb c) (ms_est s) W1 ltac:(lia)) as [best EB].
  exists best. split; auto.
  assert (OUT := mi_out _ _ _ _ _ _ (fi_inv _ _ _ _ _ _ FI)). cbn [mc_F mc_B k mab_cfg] in OUT.
  destruct (best_cells_spec _ _ _ _ EB) as [NB [m [_ [_ [BI BL]]]]].
  { intros f' b' Hf' Hb'. destruct (arm_dec (mh_hists mh) f' b') as [A|A].
    - destruct (STD f' b' A) as [x [-> _]]. reflexivity.
    - now rewrite OUT. }
  split; auto. intros f b IB. destruct (BI f b IB) as [Hf [Hb Hm]].
  assert (A : is_arm (mh_hists mh) f b).
  { destruct (arm_dec (mh_hists mh) f b) as [A|A]; auto. exfalso. rewrite (OUT f b Hf Hb A) in Hm. subst m.
    destruct (ms_cand s0) as [|[f1 b1] l] eqn:EC; [cbn in L5'; lia|].
    assert (A1 : is_arm (mh_hists mh) f1 b1). { apply (mi_cand _ _ _ _ _ _ I0). rewrite EC. now left. }
    destruct (STD f1 b1 A1) as [x [X _]]. destruct (arm_range _ _ _ _ ST f1 b1 A1) as [R1 R2]. specialize (BL f1 b1 R1 R2). rewrite X in BL. discriminate. }
  destruct (proj1 (arm_edge_at _ _ _ _ ST f b) A) as [v EA]. destruct EA as [h0 [e [Z1 [Z2 Z3]]]].
  destruct (fi_inv _ _ _ _ _ _ FI) as [[_ HO] _ _ _ _ _ _ _ _ _ _].
  destruct (HO f h0 Z1) as [h' [I [J1 [J2 _]]]]. exists h', e, v. split; auto. split; congruence.
Qed.

(** ** The start of the loop *)
Lemma mab_start M c eps repl budget batch data labels mir W mh np j gen :
  solvable c data labels W -> s_bin c <> IDENTITY -> 1 <= batch ->
  make_histograms (s_class c) data labels (s_minmax c) (s_dd c) (s_bin c) (s_nb c) np = Ok mh ->
  5 < arm_count W (edges_of (mh_hists mh)) ->
  start M (mab_cfg c eps repl budget batch data labels mir W) (mh_hists mh) (s_class c) (if s_class c then unique labels else [])
    (mab_init c repl data W j mh gen).
Proof.
  intros S NI HB EM L5. constructor; try reflexivity.
  - eapply mab_minv; eauto.
  - apply (mab_initial M c eps repl budget batch data labels mir W S NI HB mh np EM).
  - rewrite (mab_count c eps repl budget batch data labels mir W S NI HB mh _ EM). exact L5.
Qed.

Lemma arm_count_ext W E E' : (forall f, E f = E' f) -> arm_count W E = arm_count W E'.
Proof. intros H. unfold arm_count. apply list_sum_ext. intros. now rewrite H. Qed.
Lemma busy_ext W E E' : (forall f, E f = E' f) -> busy_features W E = busy_features W E'.
Proof. intros H. unfold busy_features. apply filter_ext. intros. now rewrite H. Qed.

(** ** A batch that covers all rows *)
Lemma mab_full M c eps repl budget batch data labels mir W e0 out e1 :
  solvable c data labels W -> length data <= batch ->
  solve_mab M c eps repl budget batch data labels mir e0 = Ok (out, e1) ->
  exists E, (forall f, f < W -> candidates (s_bin c) (nbins c data) (s_minmax c) data f (E f)) /\
    (5 < arm_count W E ->
       best_answer (reduction (impurity M c) (combine data labels)) mir W E out /\
       sres_q out = length data * length (busy_features W E)).
Proof.
  intros S LE H. pose proof (mab_run _ _ _ _ _ _ _ _ _ _ _ _ _ S H) as [NI _].
  assert (HB : 1 <= batch). { pose proof (sv_rows _ _ _ _ S). destruct data; [contradiction|]. cbn [length] in LE. lia. }
  destruct (mab_finished _ _ _ _ _ _ _ _ _ _ _ _ _ S HB H) as [E [mh [s [f [b [v [HC [HE [EM [EL [ST [FI [SS [Hf [Hb [EV [BEST EO]]]]]]]]]]]]]]]]].
  cbn beta zeta in *. exists E. split; auto. intros L5. specialize (SS L5). destruct (BEST SS) as [EV' [x [X1 [_ MIN]]]].
  assert (L5' : 5 < arm_count W (edges_of (mh_hists mh))) by (rewrite <- (arm_count_ext _ _ _ HE); exact L5).
  pose proof (mab_start M c eps repl budget batch data labels mir W mh _ (e_mem e0 (e_calls e0)) (e_gen e0) S NI HB EM L5') as STA.
  destruct (full_loop M _ _ _ _ ST _ _ _ STA LE EL) as [Q TR]. cbn [mc_N mab_cfg] in Q.
  rewrite (mab_busy c eps repl budget batch data labels mir W S NI HB mh _ EM) in Q.
  set (red := reduction (impurity M c) (combine data labels)).
  assert (TC : forall f v, true_change M (mab_cfg c eps repl budget batch data labels mir W) (s_class c) f v = red f v).
  { intros. unfold true_change, red. cbn [mc_data mc_labels mc_measure mab_cfg]. unfold impurity, class_imp. destruct (s_class c); auto. }
  assert (VAL : forall f' b' v', nth_error (E f') b' = Some v' -> ms_est s f' b' = Fin (red f' v')).
  { intros f' b' v' N. rewrite HE in N. rewrite <- TC. apply TR; [|now apply edge_at_edges].
    apply (mab_arm c eps repl budget batch data labels mir W S NI HB mh _ EM). eauto. }
  pose proof (VAL _ _ _ EV') as VX. assert (x = red f v) by congruence. subst x.
  assert (ALL : forall f' v', f' < W -> In v' (E f') -> (red f v <= red f' v')%Qc).
  { intros f' v' Hf' I. apply In_nth_error in I. destruct I as [b' N]. apply xle_fin.
    rewrite <- VX, <- (VAL _ _ _ N). eapply MIN; eauto. }
  split.
  - rewrite EO, VX. cbn [xlt]. destruct (qlt (red f v) mir) eqn:QL.
    + cbn. split; auto. split; [eapply nth_error_In; eauto|]. split; auto. split; auto. now apply qlt_spec.
    + cbn. intros f' v' Hf' I. eapply Qcle_trans; [|now apply ALL]. apply Qcnot_lt_le. intros Z. apply qlt_spec in Z. congruence.
  - assert (SQ : sres_q out = ms_q s) by (rewrite EO; destruct (xlt _ _); reflexivity).
    rewrite SQ, Q, (busy_ext _ _ _ HE). apply Nat.mul_comm.
Qed.

Lemma right_best red mir W E out : right_answer red mir W E out -> best_answer red mir W E out.
Proof.
  destruct out as [f v r q|q]; cbn; auto. intros [Hf [b [N [R [L A]]]]]. split; auto. split; [eapply nth_error_In; eauto|].
  split; auto. split; auto. intros f' v' Hf' I. apply In_nth_error in I. destruct I as [b' N']. now apply (A f' b' v').
Qed.

Lemma mab_full_like_exact M c eps repl budget batch data labels mir W e0 e0' out e1 out' e1' E :
  solvable c data labels W -> s_bin c = LINEAR -> length data <= batch ->
  (forall f, f < W -> candidates (s_bin c) (nbins c data) (s_minmax c) data f (E f)) -> 5 < arm_count W E ->
  solve_mab M c eps repl budget batch data labels mir e0 = Ok (out, e1) ->
  solve_exactly M c data labels mir e0' = Ok (out', e1') -> same_quality out out'.
Proof.
  intros S BT LE HE L5 H1 H2. destruct (mab_full _ _ _ _ _ _ _ _ _ _ _ _ _ S LE H1) as [E1 [C1 K1]].
  destruct (exact_answer c data labels W S _ _ _ _ _ H2) as [E2 [C2 [R2 [_ [Q2 _]]]]]. apply right_best in R2.
  assert (U1 : forall f, f < W -> E1 f = E f) by (intros f Hf; apply (candidates_unique (s_bin c) (nbins c data) (s_minmax c) data f); auto).
  assert (U2 : forall f, f < W -> E2 f = E f) by (intros f Hf; apply (candidates_unique (s_bin c) (nbins c data) (s_minmax c) data f); auto).
  destruct K1 as [R1 Q1].
  { assert (Z : arm_count W E1 = arm_count W E) by (apply list_sum_ext; intros f I; apply in_seq in I; rewrite U1; auto; lia). lia. }
  assert (BU : busy_features W E1 = busy_features W E2).
  { unfold busy_features. apply filter_ext_in'. intros f I. apply in_seq in I. rewrite U1, U2 by lia. reflexivity. }
  destruct out as [f v r q|q], out' as [f' v' r' q'|q']; cbn in *.
  - destruct R1 as [Hf [I1 [-> [_ A1]]]], R2 as [Hf' [I2 [-> [_ A2]]]]. split.
    + f_equal. apply Qcle_antisym.
      * apply A1; auto. rewrite U1, <- U2; auto.
      * apply A2; auto. rewrite U2, <- U1; auto.
    + congruence.
  - destruct R1 as [Hf [I1 [_ [L A1]]]]. exfalso. eapply Qclt_not_le; [exact L|]. apply R2; auto. rewrite U2, <- U1; auto.
  - destruct R2 as [Hf [I1 [_ [L A1]]]]. exfalso. eapply Qclt_not_le; [exact L|]. apply R1; auto. rewrite U1, <- U2; auto.
  - congruence.
Qed.

(** ** One round only *)
Lemma last_linear_edge B lo hi : 2 <= B ->
  nth_error (map (fun b => lo + (hi - lo) * (rat b / rat (B - 1)))%Qc (seq 0 B)) (B - 1) = Some hi.
Proof.
  intros HB. rewrite nth_error_map. rewrite (nth_error_nth' (seq 0 B) 0) by (rewrite seq_length; lia). rewrite seq_nth by lia.
  cbn [option_map]. f_equal. change (0 + (B - 1)) with (B - 1).
  assert (rat (B - 1) <> 0%Qc). { change rat with Nq. intros Z. apply (Nq_inj _ 0) in Z. lia. }
  field. auto.
Qed.

Lemma mab_one_round M c eps repl budget batch data labels mir W e0 out e1 E :
  solvable c data labels W -> 1 <= batch -> s_class c = true -> s_bin c = LINEAR ->
  (forall f lo hi r, f < W -> range_of (s_minmax c) data f lo hi -> In r data -> (nth f r 0 <= hi)%Qc) ->
  2 <= length (nodup Qc_eq_dec labels) ->
  (forall f, f < W -> candidates (s_bin c) (nbins c data) (s_minmax c) data f (E f)) -> 5 < arm_count W E ->
  solve_mab M c eps repl budget batch data labels mir e0 = Ok (out, e1) ->
  sres_q out = Nat.min batch (length data) * length (busy_features W E).
Proof.
  intros S HB IC BT COV K2 HCE L5 H. pose proof (mab_run _ _ _ _ _ _ _ _ _ _ _ _ _ S H) as [NI _].
  destruct (le_lt_dec (length data) batch) as [LE|LT].
  { destruct (mab_full _ _ _ _ _ _ _ _ _ _ _ _ _ S LE H) as [E1 [C1 K1]].
    assert (U1 : forall f, f < W -> E1 f = E f) by (intros f Hf; apply (candidates_unique (s_bin c) (nbins c data) (s_minmax c) data f); auto).
    assert (Z : arm_count W E1 = arm_count W E) by (apply list_sum_ext; intros f I; apply in_seq in I; rewrite U1; auto; lia).
    destruct K1 as [_ ->]; [lia|]. rewrite Nat.min_r by lia. f_equal. f_equal. unfold busy_features. apply filter_ext_in'. intros f I. apply in_seq in I. rewrite U1 by lia. reflexivity. }
  destruct (mab_finished _ _ _ _ _ _ _ _ _ _ _ _ _ S HB H) as [E1 [mh [s [f [b [v [HC [HE [EM [EL [ST [FI [SS [Hf [Hb [EV [BEST EO]]]]]]]]]]]]]]]]].
  cbn beta zeta in *.
  assert (U1 : forall f, f < W -> E1 f = E f) by (intros f' Hf'; apply (candidates_unique (s_bin c) (nbins c data) (s_minmax c) data f'); auto).
  assert (CNT : arm_count W E1 = arm_count W E) by (apply list_sum_ext; intros f' I; apply in_seq in I; rewrite U1; auto; lia).
  assert (BSY : busy_features W E1 = busy_features W E).
  { unfold busy_features. apply filter_ext_in'. intros f' I. apply in_seq in I. rewrite U1 by lia. reflexivity. }
  assert (L5' : 5 < arm_count W (edges_of (mh_hists mh))) by (rewrite <- (arm_count_ext _ _ _ HE); lia).
  pose proof (mab_start M c eps repl budget batch data labels mir W mh _ (e_mem e0 (e_calls e0)) (e_gen e0) S NI HB EM L5') as STA.
  set (k := mab_cfg c eps repl budget batch data labels mir W) in *.
  set (s0 := mab_init c repl data W (e_mem e0 (e_calls e0)) mh (e_gen e0)) in *.
  (* an arm at the top of its feature's range *)
  assert (TOP : exists f1 b1 v1, In (f1, b1) (ms_cand s0) /\ edge_at (mh_hists mh) f1 b1 v1 /\ forall r, In r data -> (nth f1 r 0 <= v1)%Qc).
  { pose proof (so_many _ _ _ _ _ _ STA) as LM. destruct (ms_cand s0) as [|[f1 b0] l] eqn:EC; [cbn in LM; lia|].
    assert (I1 : In (f1, b0) (ms_cand s0)) by (rewrite EC; now left).
    destruct (mi_cand _ _ _ _ _ _ (so_inv _ _ _ _ _ _ STA) f1 b0 I1) as [A _]. destruct (arm_range _ _ _ _ ST f1 b0 A) as [Hf1 _]. cbn [mc_F k mab_cfg] in Hf1.
    destruct (proj1 (mab_arm c eps repl budget batch data labels mir W S NI HB mh _ EM f1 b0) A) as [v0 N0].
    pose proof (HC f1 Hf1) as CF. rewrite BT, HE in CF. cbn [candidates] in CF. destruct CF as [lo [hi [RG D]]].
    destruct D as [[_ D]|[_ D]]; [rewrite D in N0; destruct b0; discriminate|].
    assert (B2 : 2 <= nbins c data). { rewrite (mab_bins c data NI). pose proof (sv_bins _ _ _ _ S) as SB. rewrite BT in SB. exact SB. }
    pose proof (last_linear_edge (nbins c data) lo hi B2) as LA. rewrite <- D in LA.
    exists f1, (nbins c data - 1), hi. split; [|split].
    - rewrite <- EC. apply (mab_cands c eps repl budget batch data labels mir W S NI HB mh _ EM (e_mem e0 (e_calls e0)) (e_gen e0)).
      apply (mab_arm c eps repl budget batch data labels mir W S NI HB mh _ EM). eauto.
    - now apply edge_at_edges.
    - intros r I. eapply COV; eauto. }
  destruct TOP as [f1 [b1 [v1 [J1 [J2 J3]]]]].
  rewrite IC in ST, STA.
  assert (NP : ms_pop s0 <> Some []).
  { cbn [s0 mab_init ms_pop]. destruct repl; [discriminate|]. intros Z. injection Z as Z. apply (f_equal (@length _)) in Z. rewrite arange_length in Z.
    pose proof (sc_pos _ _ _ _ ST) as P. cbn in *. lia. }
  assert (Q : ms_q s = busy k (mh_hists mh) * drawn k (ms_pop s0) (mc_batch k)).
  { eapply (one_round M k _ _ _ ST _ s0 s f1 b1 STA); [|intros _; exact LT| |exact EL].
    - apply (mi_cand _ _ _ _ _ _ (so_inv _ _ _ _ _ _ STA) f1 b1 J1).
    - intros r ER. eapply top_edge_nan; eauto. { apply STA. } now rewrite unique_length_nodup. }
  assert (SQ : sres_q out = ms_q s) by (rewrite EO; destruct (xlt _ _); reflexivity). rewrite SQ, Q, <- BSY.
  pose proof (mab_busy c eps repl budget batch data labels mir W S NI HB mh _ EM) as BB. fold k in BB. rewrite BB, (busy_ext _ _ _ HE), Nat.mul_comm. f_equal.
  unfold drawn. cbn [s0 mab_init ms_pop k mab_cfg mc_batch mc_N]. destruct repl; [lia|]. rewrite arange_length. lia.
Qed.

(** ** Memory *)
Lemma solve_mab_unfold M c eps repl budget batch data labels mir W e0 :
  solvable c data labels W -> s_bin c <> IDENTITY ->
  solve_mab M c eps repl budget batch data labels mir e0 =
  (do mh <- make_histograms (s_class c) data labels (s_minmax c) (s_dd c) (s_bin c) (s_nb c) (e_np e0);
     do _ <- guard (in_range W (s_nb c) (mh_not mh)) IndexError;
     do s <- mab_loop M (mab_cfg c eps repl budget batch data labels mir W) (mab_fuel W (s_nb c) (length data)) (mab_init c repl data W (e_mem e0 (e_calls e0)) mh (e_gen e0));
     do best <- best_cells W (s_nb c) (ms_est s);
     do bp <- choice_one best (e_py e0);
     do r <- finish (ms_hists s) (ms_est s) mir (fst bp) (ms_q s);
     Ok (r, {| e_gen := ms_gen s; e_np := mh_np mh; e_py := snd bp; e_mem := e_mem e0; e_calls := Datatypes.S (e_calls e0) |})).
Proof.
  intros S NI. destruct (sv_first _ _ _ _ S) as [r0 [Hr L0]]. unfold solve_mab. cbn [alloc]. cbv zeta.
  apply nth_res_ok in Hr. rewrite Hr. cbn [rbind]. rewrite L0. cbn [e_np e_gen e_py].
  destruct (s_bin c); try contradiction; reflexivity.
Qed.

Lemma mab_memory M c eps repl budget batch data labels mir W e0 out e1 E mem :
  solvable c data labels W -> 1 <= batch ->
  (forall f, f < W -> candidates (s_bin c) (nbins c data) (s_minmax c) data f (E f)) -> 5 < arm_count W E ->
  solve_mab M c eps repl budget batch data labels mir e0 = Ok (out, e1) ->
  solve_mab M c eps repl budget batch data labels mir (with_memory e0 mem) = Ok (out, with_memory e1 mem).
Proof.
  intros S HB HCE L5 H. pose proof (mab_run _ _ _ _ _ _ _ _ _ _ _ _ _ S H) as [NI _].
  rewrite (solve_mab_unfold _ _ _ _ _ _ _ _ _ W) in * by auto. cbn [with_memory e_gen e_np e_py e_mem e_calls].
  apply rbind_ok in H. destruct H as [mh [EM H]]. rewrite EM. cbn [rbind].
  apply rbind_ok in H. destruct H as [[] [EG H]]. rewrite EG. cbn [rbind].
  set (k := mab_cfg c eps repl budget batch data labels mir W) in *.
  set (s1 := mab_init c repl data W (e_mem e0 (e_calls e0)) mh (e_gen e0)) in *.
  set (s2 := mab_init c repl data W (mem (e_calls e0)) mh (e_gen e0)).
  pose proof (mab_static c eps repl budget batch data labels mir W S NI HB mh _ EM) as ST. fold k in ST.
  pose proof EM as EM'. rewrite <- (mab_bins c data NI) in EM'. destruct (sv_candidates _ _ _ _ S mh _ EM') as [_ HC].
  assert (CNT : arm_count W (edges_of (mh_hists mh)) = arm_count W E).
  { unfold arm_count. apply list_sum_ext. intros f I. apply in_seq in I. eapply candidates_length; [exact NI|apply HC; lia|apply HCE; lia]. }
  pose proof (mab_start M c eps repl budget batch data labels mir W mh _ (e_mem e0 (e_calls e0)) (e_gen e0) S NI HB EM ltac:(lia)) as STA. fold k s1 in STA.
  pose proof (so_inv _ _ _ _ _ _ STA) as I1. pose proof (so_many _ _ _ _ _ _ STA) as LM.
  assert (NOT := mab_notin c batch data labels W S NI HB mh _ EM).
  assert (CA := mab_cands c eps repl budget batch data labels mir W S NI HB mh _ EM (e_mem e0 (e_calls e0)) (e_gen e0)). fold s1 in CA.
  assert (AG : forall m m' (x : xn), agree W (s_nb c) (ms_cand s1) (upd_const m (mh_not mh) x) (upd_const m' (mh_not mh) x)).
  { intros m m' x f b Hf Hb NI'. assert (I : In (f, b) (mh_not mh)) by (apply NOT; auto; now rewrite <- CA). now rewrite !upd_const_in. }
  assert (SIM : sim (mc_F k) (mc_B k) (ms_cand s1) s1 s2) by (constructor; try reflexivity; apply AG).
  assert (NP : ms_pop s1 <> Some []).
  { cbn [s1 mab_init ms_pop]. destruct repl; [discriminate|]. intros Z. injection Z as Z. apply (f_equal (@length _)) in Z. rewrite arange_length in Z.
    pose proof (sc_pos _ _ _ _ ST) as P. cbn in *. lia. }
  assert (EX : exact_cells k s1 = [] \/ incl (ms_cand s1) (exact_cells k s1)).
  { destruct (le_lt_dec (mc_N k) (mc_batch k)) as [LE|LT].
    - right. intros [f b] I. destruct (mi_cand _ _ _ _ _ _ I1 f b I) as [A X]. destruct (arm_range _ _ _ _ ST f b A).
      apply filter_In. split; [now apply cells_in|]. cbn [fst snd]. rewrite X. cbn [negb]. rewrite andb_true_r. apply Nat.leb_le. lia.
    - left. unfold exact_cells. assert (G : forall l : list (nat * nat), filter (fun c0 => (mc_N k <=? ms_ns s1 (fst c0) (snd c0) + mc_batch k) && negb (ms_exact s1 (fst c0) (snd c0))) l = []).
      { induction l as [|a l IH]; auto. cbn [filter]. assert (Z : (mc_N k <=? ms_ns s1 (fst a) (snd a) + mc_batch k) = false) by (apply Nat.leb_gt; cbn [s1 mab_init ms_ns]; lia).
        rewrite Z. cbn. exact IH. }
      apply G. }
  pose proof (loop_sim_first M k (ms_cand s1) (mab_fuel W (s_nb c) (length data)) s1 s2 SIM (mi_nodup _ _ _ _ _ _ I1) (incl_refl _) LM NP EX) as LS.
  apply rbind_ok in H. destruct H as [s [EL H]]. rewrite EL in LS. 
  destruct (mab_loop M k (mab_fuel W (s_nb c) (length data)) s2) as [t|]; [|contradiction]. cbn [rres rbind] in *.
  destruct LS as [S1 S2 S3 S4 S5 S6 S7 S8 S9 S10]. cbn [mc_F mc_B k mab_cfg] in S8.
  apply rbind_ok in H. destruct H as [best [EB H]]. apply rbind_ok in H. destruct H as [[[f b] py] [EC H]].
  apply rbind_ok in H. destruct H as [r [EF H]]. apply ok_pair_inv in H. destruct H as [-> <-].
  assert (EB' : best_cells W (s_nb c) (ms_est t) = Ok best).
  { rewrite <- EB. unfold best_cells. rewrite <- (agree_flat _ _ _ _ S8). destruct (xnanmin_list _); cbn [rbind]; auto. f_equal.
    apply filter_ext_in'. intros [f' b'] I. apply cells_in in I. cbn [fst snd]. rewrite (S8 f' b'); auto; tauto. }
  rewrite EB'. cbn [rbind]. rewrite EC. cbn [rbind]. 
  assert (RG : f < W /\ b < s_nb c).
  { apply choice_one_in in EC. unfold best_cells in EB. apply rbind_ok in EB. destruct EB as [mn [_ EB]]. injection EB as <-.
    apply filter_In in EC. destruct EC as [EC _]. now apply cells_in in EC. }
  assert (EF' : finish (ms_hists t) (ms_est t) mir (f, b) (ms_q t) = Ok out).
  { rewrite <- EF. unfold finish. cbn [fst snd]. rewrite S4, S6, (S8 f b) by tauto. reflexivity. }
  cbn [fst snd] in *. rewrite EF'. cbn [rbind]. unfold with_memory. cbn [e_gen e_np e_py e_mem e_calls]. now rewrite S7.
Qed.

(** ** Termination for every number of arms *)
Lemma mab_terminates M c eps repl budget batch data labels mir W e0 :
  solvable c data labels W -> 1 <= batch -> solve_mab M c eps repl budget batch data labels mir e0 <> Err OutOfFuel.
Proof.
  intros S HB. assert (DEC : s_bin c = IDENTITY \/ s_bin c <> IDENTITY) by (destruct (s_bin c); (now left) || (right; discriminate)). destruct DEC as [EI|NI].
  { destruct (sv_first _ _ _ _ S) as [r0 [Hr L0]]. unfold solve_mab. cbn [alloc]. cbv zeta. apply nth_res_ok in Hr. rewrite Hr. cbn [rbind]. rewrite EI. discriminate. }
  rewrite (solve_mab_unfold _ _ _ _ _ _ _ _ _ W) by auto.
  assert (BT : s_bin c = LINEAR \/ s_bin c = IDENTITY \/ s_bin c = RANDOM) by apply (sv_type _ _ _ _ S).
  destruct (make_histograms_total (s_class c) data labels (s_minmax c) (s_dd c) (s_bin c) (s_nb c) (e_np e0) W (sv_rect _ _ _ _ S)) as [mh EM]; auto.
  all: try apply S. { apply sv_covers with (c := c) (data := data) (labels := labels); auto. }
  rewrite EM. cbn [rbind]. destruct (in_range W (s_nb c) (mh_not mh)); cbn [guard rbind]; [|discriminate].
  set (k := mab_cfg c eps repl budget batch data labels mir W).
  pose proof (mab_static c eps repl budget batch data labels mir W S NI HB mh _ EM) as ST. fold k in ST.
  pose proof (mab_minv M c eps repl budget batch data labels mir W S NI HB mh _ EM (e_mem e0 (e_calls e0)) (e_gen e0)) as I0. fold k in I0.
  pose proof (mab_initial M c eps repl budget batch data labels mir W S NI HB mh _ EM (e_mem e0 (e_calls e0)) (e_gen e0)) as IN0.
  pose proof (mab_in_budget c eps repl budget batch data labels mir W HB mh (e_mem e0 (e_calls e0)) (e_gen e0)) as IB0. fold k in IB0.
  set (s0 := mab_init c repl data W (e_mem e0 (e_calls e0)) mh (e_gen e0)) in *.
  assert (FUEL : left_in (ms_pop s0) + (if mc_repl k then todo k s0 else 0) < mab_fuel W (s_nb c) (length data)).
  { unfold mab_fuel. cbn [mc_repl k mab_cfg s0 mab_init ms_pop]. destruct repl.
    - cbn [left_in]. unfold todo. cbn [mc_N mc_F mc_B k mab_cfg].
      match goal with |- _ + list_sum (map ?g ?l) < _ => pose proof (list_sum_bound g l (length data)) as LB end.
      rewrite cells_length in LB. assert (G : forall a b, a <= b -> 0 + a < b + length data + 2) by lia. apply G, LB.
      intros a _. destruct (ms_exact _ _ _); lia.
    - cbn [left_in]. rewrite arange_length. lia. }
  destruct (loop_total M k (mh_hists mh) (s_class c) _ ST W (sv_rect _ _ _ _ S) (le_n _) (sv_measure_ok _ _ _ _ S) _ s0 I0 (or_introl IN0) IB0 FUEL) as [s EL].
  rewrite EL. cbn [rbind]. unfold best_cells. intros H. unfold xnanmin_list in H. destruct (flat W (s_nb c) (ms_est s)); cbn [rbind] in H; [discriminate|].
  unfold choice_one in H. destruct (filter _ _); cbn [rbind] in H; [discriminate|]. destruct (draw (e_py e0)). cbn [rbind fst snd] in H.
  unfold finish in H. unfold nth_res in H at 1. destruct (nth_error (ms_hists s) _); cbn [rbind] in H; [|discriminate].
  destruct (h_edges _); cbn [opt_res rbind] in H; [|discriminate]. unfold nth_res in H. destruct (nth_error _ _); cbn [rbind] in H; discriminate.
Qed.

(** ** Alignment *)
Lemma targets_aligned M c data labels W mh np acc batch pop t r :
  solvable c data labels W -> s_bin c <> IDENTITY -> s_class c = true ->
  make_histograms (s_class c) data labels (s_minmax c) (s_dd c) (s_bin c) (s_nb c) np = Ok mh ->
  by_feature acc -> NoDup acc ->
  (forall f b, In (f, b) acc -> exists v, nth_error (edges_of (mh_hists mh) f) b = Some v) ->
  sample_targets M (s_measure c) data labels acc (mh_hists mh) batch pop t = Ok r ->
  exists I, (forall i, In i I -> i < length data) /\ length (sr_ir r) = length acc /\
    forall i f b v, nth_error acc i = Some (f, b) -> nth_error (edges_of (mh_hists mh) f) b = Some v ->
      nth_error (sr_ir r) i = Some (Fin (reduction (impurity M c) (picked data labels I) f v)).
Proof.
  intros S NI IC EM BF ND AR H.
  pose proof (mab_static c 0%Qc true None 1 data labels 0%Qc W S NI (le_n _) mh _ EM) as ST.
  destruct (sample_targets_spec _ _ _ _ _ _ _ _ _ _ H BF (sv_labels _ _ _ _ S))
    as [idcs [ps [X [Y [ED [VI [EX [EY [EC [EQ [EL [EO [EI [irs [vs [EIR [ECB [L1 [L2 SCO]]]]]]]]]]]]]]]]]]].
  exists idcs. split; auto. split; [now rewrite EIR, map_length|]. intros i f b v Hi Hv.
  destruct (SCO i f b Hi) as [ir [vv [Q1 [Q2 [h' [bs [rv [j [Q3 [Q4 [Q5 [Q6 Q7]]]]]]]]]]]].
  rewrite EIR, nth_error_map, Q1. cbn [option_map]. f_equal. f_equal.
  assert (Iacc : In (f, b) acc) by (eapply nth_error_In; eauto).
  assert (J : In f (map fst acc)) by (apply in_map_iff; exists (f, b); auto).
  destruct (EI f J) as [h1 [h2 [K1 [K2 K3]]]]. rewrite Q3 in K3. injection K3 as <-.
  pose proof (sc_hist _ _ _ _ ST f h1 K1) as HF. rewrite IC in HF.
  pose proof (hist_for_state _ _ _ _ HF (fun _ => unique_nodup labels)) as S0.
  destruct (hist_add_state _ _ _ _ _ _ _ _ S0 K2) as [_ [S1 [S2 [S3 _]]]].
  destruct (state_scores _ _ _ _ _ _ _ _ _ _ _ _ S1 Q4 Q5 Q6) as [e [edges [W1 [W2 ->]]]].
  cbn [app]. rewrite EC, <- picked_rows by (auto; apply S).
  assert (e = v). { unfold edges_of in Hv. rewrite K1, <- S2, W1 in Hv. congruence. } subst e.
  unfold impurity, class_imp. now rewrite IC.
Qed.

Lemma loop_aligned M c eps repl budget batch data labels mir W np mh j gen fuel s :
  solvable c data labels W -> s_bin c <> IDENTITY -> 1 <= batch -> s_class c = true ->
  make_histograms (s_class c) data labels (s_minmax c) (s_dd c) (s_bin c) (s_nb c) np = Ok mh ->
  5 < arm_count W (edges_of (mh_hists mh)) ->
  mab_loop M (mab_cfg c eps repl budget batch data labels mir W) fuel (mab_init c repl data W j mh gen) = Ok s ->
  by_feature (ms_cand s) /\ NoDup (ms_cand s) /\
  forall f b v, f < W -> nth_error (edges_of (mh_hists mh) f) b = Some v ->
    exists I, some_rows data I /\ (repl = false -> NoDup I) /\
      ms_est s f b = Fin (reduction (impurity M c) (picked data labels I) f v).
Proof.
  intros S NI HB IC EM L5 EL.
  set (k := mab_cfg c eps repl budget batch data labels mir W) in *.
  pose proof (mab_static c eps repl budget batch data labels mir W S NI HB mh _ EM) as ST. fold k in ST.
  pose proof (mab_start M c eps repl budget batch data labels mir W mh _ j gen S NI HB EM L5) as STA. fold k in STA.
  pose proof (mab_in_budget c eps repl budget batch data labels mir W HB mh j gen) as IB0. fold k in IB0.
  destruct (loop_ok M k (mh_hists mh) (s_class c) _ ST _ _ _ (so_inv _ _ _ _ _ _ STA) (or_introl (so_init _ _ _ _ _ _ STA)) IB0 EL) as [FI SS].
  split; [apply FI|]. split; [apply FI|]. intros f b v Hf N.
  assert (STD : started M k (mh_hists mh) (s_class c) s).
  { apply SS. right. split; [apply STA|]. cbn. destruct repl; [discriminate|]. intros Z. injection Z as Z. apply (f_equal (@length _)) in Z.
    rewrite arange_length in Z. pose proof (sc_pos _ _ _ _ ST) as P. cbn in *. lia. }
  assert (A : is_arm (mh_hists mh) f b) by (apply (mab_arm c eps repl budget batch data labels mir W S NI HB mh _ EM); eauto).
  destruct (STD f b A) as [x [-> [I [I1 [I2 [I3 I4]]]]]]. exists I. split; [split; auto|]. split; auto. f_equal.
  assert (EA : edge_at (mh_hists mh) f b v) by now apply edge_at_edges.
  rewrite picked_rows by (auto; apply S). rewrite (I4 IC v EA). cbn [mc_measure mc_data mc_labels k mab_cfg]. unfold impurity, class_imp. now rewrite IC.
Qed.

(** Comparing boosted models, and the verdict. *)
From Coq Require Import List Arith Bool ZArith QArith Qcanon Lia.
From Verif Require Import Base Num Rng Histogram Utils Criteria Solvers Tree Forest Wrappers Compare Spec SolverSpec TreeSpec ForestSpec WrapSpec CompareSpec.
From Verif Require Import NumFacts ListFacts HistAdd PermFacts TreeFacts TreeThms MabMore Repro ForestFacts ForestThms ForestMore ForestTotal ForestRepro WrapFacts WrapLife CompareThms.
Import ListNotations.
Local Open Scope nat_scope.

Lemma f2_len {A B} (R : A -> B -> Prop) l l' : Forall2 R l l' -> length l = length l'.
Proof. induction 1; cbn; lia. Qed.
Lemma f2_nth {A B} (R : A -> B -> Prop) l l' : Forall2 R l l' -> forall i a b, nth_error l i = Some a -> nth_error l' i = Some b -> R a b.
Proof. induction 1 as [|x y l l' HR F IH]; intros [|i] a b H1 H2; cbn in *; try discriminate; [congruence|eauto]. Qed.
Lemma gb_settings P tk sv seed h e o h' e' : tk_w tk = GBHistogramRandomForestRegressor -> construct P (tk_w tk) (call_args tk sv seed) h e = Ok (o, h', e') ->
  h' = h /\ fc_class (wo_cfg o) = false /\ fc_boosting (wo_cfg o) = true /\ all_rows (wo_cfg o) /\ fit_data (wo_forest o) (None, None) = Some (tk_X tk) /\ boost_ref (wo_forest o) (None, None) = Some (tk_y tk).
Proof.
  intros W H. assert (NP : ~ patched (tk_w tk)) by (rewrite W; intros [Q|[Q|[Q|Q]]]; discriminate Q). destruct (plain_shape _ _ _ _ _ _ _ _ H NP) as (HH & _ & D & _ & L & _).
  pose proof (kind _ _ _ _ _ _ _ _ H) as K. pose proof (fixed_means _ _ _ _ _ _ _ _ H) as FM. rewrite W in *. split; auto. split; [exact K|].
  split; [apply (FM Kboosting (VBool true)); [cbn; tauto|discriminate..]|]. split.
  - split; [apply (FM Kbootstrap (VBool false)); [cbn; tauto|discriminate..]|]. assert (A1 : fc_alpha_N (wo_cfg o) = 1%Qc) by (apply (FM Kalpha_N (VNum 1%Qc)); [cbn; tauto|discriminate..]).
    assert (A2 : fc_alpha_F (wo_cfg o) = 1%Qc) by (apply (FM Kalpha_F (VNum 1%Qc)); [cbn; tauto|discriminate..]). rewrite A1, A2. split; apply Qcle_refl.
  - assert (I1 : passes (call_args tk sv seed) Kdata (VTable (tk_X tk))) by (unfold passes, call_args; apply in_or_app; left; cbn; tauto).
    assert (I2 : passes (call_args tk sv seed) Klabels (VArr (tk_y tk))) by (unfold passes, call_args; apply in_or_app; left; cbn; tauto).
    split; [apply (D _ I1)|]. pose proof (L _ I2) as O. cbn [boost_ref snd]. destruct (built_new _ _ _ _ _ _ _ _ H) as (dt & l & cl & bu & _ & _ & _ & _ & FN). apply new_shape in FN. destruct FN as (_ & S2 & S3 & _). congruence.
Qed.

Lemma boosted_judge M P c f0 h0 e0 f1 h1 e1 tk h a : forest_fit M P c f0 (None, None) h0 e0 = Ok (f1, h1, e1) -> fit_data f0 (None, None) = Some (tk_X tk) -> all_rows c -> fc_class c = false -> fc_boosting c = true -> w_class (tk_w tk) = false ->
  judge tk c f1 h = Ok a -> exists y v, nth_error h (tk_y tk) = Some y /\ length (la_vals y) = length (tk_X tk) /\ 1 <= length (tk_X tk) /\
    (forall i, i < length (tk_X tk) -> foresees a (nth i (tk_X tk) []) (v i)) /\
    en_train a = Fin (mean (map (fun i => (v i - nth i (la_vals y) 0) * (v i - nth i (la_vals y) 0))%Qc (seq 0 (length (tk_X tk))))).
Proof.
  intros F D AR IC BO WC J. assert (NP : 1 <= length (tk_X tk)).
  { destruct (forest_fit_spec _ _ _ _ _ _ _ _ _ _ F) as (data' & FF & g1 & hh & s & SD & _). pose proof (sd_data _ _ _ _ _ _ _ _ SD) as Q. rewrite D in Q. injection Q as <-. exact (started_rows _ _ _ _ _ _ _ _ SD). }
  pose proof (forest_batch_pointwise M P c f0 (None, None) h0 e0 f1 h1 e1 f1 F (used_not _ _ _) (tk_X tk) D (all_some _ _ AR NP) (tk_X tk)) as BP.
  destruct (judge_same _ _ _ _ _ J) as [EC EF]. unfold judge in J. apply rbind_ok in J. destruct J as [[ps g] [E1 J]]. apply rbind_ok in J. destruct J as [y [E2 J]]. apply nth_res_ok in E2. rewrite WC in J. cbn [fst snd] in J. apply rbind_ok in J. destruct J as [s [E3 J]].
  assert (TR : en_train a = s). { destruct (tk_predict tk); [apply rbind_ok in J; destruct J as [q [_ J]]; apply rbind_ok in J; destruct J as [yt [_ J]]; apply rbind_ok in J; destruct J as [st [_ J]]|]; apply ok_inv in J; subst a; reflexivity. }
  rewrite E1 in BP. cbn [answer rbind fst] in BP. symmetry in BP. apply mapM_Forall2 in BP.
  unfold score in E3. apply rbind_ok in E3. destruct E3 as [u [G E3]]. apply guard_ok in G. apply Nat.eqb_eq in G. apply rbind_ok in E3. destruct E3 as [l [E4 E3]]. apply ok_inv in E3. subst s.
  pose proof (f2_len _ _ _ BP) as LP. set (v := fun i => match nth i ps FNanReg with FReg v => v | _ => 0%Qc end).
  assert (PV : forall i, i < length (tk_X tk) -> nth_error ps i = Some (FReg (v i)) /\ foresees a (nth i (tk_X tk) []) (v i)).
  { intros i L. destruct (nth_error ps i) as [p|] eqn:EP; [|apply nth_error_None in EP; lia]. destruct (nth_error (tk_X tk) i) as [x|] eqn:EX; [|apply nth_error_None in EX; lia].
    pose proof (f2_nth _ _ _ BP i _ _ EX EP) as A. apply answer_ok in A. destruct A as [g' A]. rewrite (nth_error_nth _ _ [] EX). unfold v. rewrite (nth_error_nth _ _ FNanReg EP). rewrite <- EC, <- EF in A.
    assert (exists w, p = FReg w) as [w ->]. { unfold forest_predict in A. rewrite EC, IC, BO in A. apply rbind_ok in A. destruct A as [[qs ts] [_ A]]. apply rbind_ok in A. destruct A as [vs [_ A]]. destruct vs; [discriminate A|]. apply rbind_ok in A. destruct A as [lr [_ A]]. apply ok_pair_inv in A. destruct A as [<- _]. eauto. }
    split; auto. exists g'. exact A. }
  exists y, v. split; auto. split; [lia|]. split; auto. split; [intros i L; now apply PV|]. rewrite TR.
  assert (LQ : l = map (fun i => Fin ((v i - nth i (la_vals y) 0) * (v i - nth i (la_vals y) 0))%Qc) (seq 0 (length (tk_X tk)))).
  { apply mapM_Forall2 in E4. apply list_ext. intros i. destruct (Nat.lt_ge_cases i (length (tk_X tk))) as [L|L].
    - destruct (PV i L) as [P1 _]. destruct (nth_error (la_vals y) i) as [q|] eqn:EY; [|apply nth_error_None in EY; lia].
      assert (EC2 : nth_error (combine ps (la_vals y)) i = Some (FReg (v i), q)) by (apply nth_error_combine; auto).
      rewrite (nth_error_map _ i _), (nth_error_nth' (seq 0 (length (tk_X tk))) 0) by (rewrite seq_length; lia). rewrite seq_nth by lia. cbn [option_map plus]. rewrite (nth_error_nth _ _ 0%Qc EY).
      destruct (nth_error l i) as [z|] eqn:EZ; [|apply nth_error_None in EZ; apply f2_len in E4; rewrite combine_length in E4; lia].
      pose proof (f2_nth _ _ _ E4 i _ _ EC2 EZ) as R. cbn in R. apply ok_inv in R. now subst z.
    - rewrite (proj2 (nth_error_None l i)), (proj2 (nth_error_None _ i)); auto; [rewrite map_length, seq_length; lia|apply f2_len in E4; rewrite combine_length in E4; lia]. }
  rewrite LQ. unfold xmean. rewrite xsum_fin, !map_length, seq_length. rewrite mean_qmean. unfold qmean. rewrite map_length, seq_length. rewrite xdiv_fin by (apply Nq_neq0; lia). reflexivity.
Qed.

(** ** One seed of boosted models *)
Theorem boosted_round M P tk seed h e a b h' e' ys : tk_w tk = GBHistogramRandomForestRegressor -> nth_error h (tk_y tk) = Some {| la_int := false; la_vals := ys |} ->
  round M P tk seed h e = Ok (a, Some b, h', e') ->
  exists left rest v u h1 e1, fitted_alone M P tk MAB seed h e (en_cfg a) (en_forest a) h1 e1 /\
    nth_error h1 (tk_y tk) = Some {| la_int := false; la_vals := left |} /\ (exists f0, f_org f0 = Some (tk_y tk) /\ forest_fit M P (en_cfg b) f0 (None, None) h1 e1 = Ok (en_forest b, h', e')) /\
    nth_error h' (tk_y tk) = Some {| la_int := false; la_vals := rest |} /\ length rest = length ys /\
    (forall i, i < length (tk_X tk) -> foresees a (nth i (tk_X tk) []) (v i) /\ foresees b (nth i (tk_X tk) []) (u i) /\
       nth i left 0%Qc = (nth i ys 0 - v i)%Qc /\ nth i rest 0%Qc = (nth i ys 0 - v i - u i)%Qc) /\
    en_train a = Fin (mean (map (fun i => let d := (v i - (nth i ys 0 - v i - u i))%Qc in (d * d)%Qc) (seq 0 (length (tk_X tk))))) /\
    en_train b = Fin (mean (map (fun i => let d := (u i - (nth i ys 0 - v i - u i))%Qc in (d * d)%Qc) (seq 0 (length (tk_X tk))))).
Proof.
  intros W HY H. destruct (round_apart _ _ _ _ _ _ _ _ _ _ H) as (o1 & o2 & h1 & h2 & h3 & f1 & e3 & [A1 A2 A3 A4 A5]). destruct A5 as (_ & f2 & F2 & J2).
  destruct (gb_settings _ _ _ _ _ _ _ _ _ W A1) as (-> & C1 & B1 & R1 & D1 & N1). destruct (gb_settings _ _ _ _ _ _ _ _ _ W A2) as (-> & C2 & B2 & R2 & D2 & N2).
  assert (WC : w_class (tk_w tk) = false) by (rewrite W; reflexivity).
  destruct (judge_same _ _ _ _ _ J2) as [Q1 Q2]. destruct (judge_same _ _ _ _ _ A4) as [Q3 Q4].
  destruct (boosted_judge M P _ _ _ _ _ _ _ tk h' a A3 D1 R1 C1 B1 WC A4) as (y & v & Y1 & Y2 & NP & V & T1). destruct (boosted_judge M P _ _ _ _ _ _ _ tk h' b F2 D2 R2 C2 B2 WC J2) as (y' & u & Y1' & _ & _ & U & T2).
  assert (y' = y) by congruence. subst y'.
  assert (L1 : exists left, nth_error h3 (tk_y tk) = Some {| la_int := false; la_vals := left |} /\ length left = length ys /\ forall i, i < length (tk_X tk) -> (nth i left 0 + v i)%Qc = nth i ys 0%Qc).
  { destruct (V 0 ltac:(lia)) as [g0 V0]. rewrite Q3, Q4 in V0. destruct (boosting_residual M P _ _ _ _ _ _ _ _ f1 _ _ ys 0 (v 0) g0 A3 (used_not _ _ _) D1 R1 C1 B1 N1 HY ltac:(lia) V0) as (l & K1 & K2 & _). exists l. split; auto. split; auto.
    intros i L. destruct (V i L) as [g V1]. rewrite Q3, Q4 in V1. destruct (boosting_residual M P _ _ _ _ _ _ _ _ f1 _ _ ys i (v i) g A3 (used_not _ _ _) D1 R1 C1 B1 N1 HY L V1) as (l' & K1' & _ & K3). rewrite K1 in K1'. injection K1' as <-. exact K3. }
  destruct L1 as (left & K1 & K2 & K3).
  assert (L2 : exists rest, nth_error h' (tk_y tk) = Some {| la_int := false; la_vals := rest |} /\ length rest = length left /\ forall i, i < length (tk_X tk) -> (nth i rest 0 + u i)%Qc = nth i left 0%Qc).
  { destruct (U 0 ltac:(lia)) as [g0 V0]. rewrite Q1, Q2 in V0. destruct (boosting_residual M P _ _ _ _ _ _ _ _ f2 _ _ left 0 (u 0) g0 F2 (used_not _ _ _) D2 R2 C2 B2 N2 K1 ltac:(lia) V0) as (l & K1' & K2' & _). exists l. split; auto. split; auto.
    intros i L. destruct (U i L) as [g V1]. rewrite Q1, Q2 in V1. destruct (boosting_residual M P _ _ _ _ _ _ _ _ f2 _ _ left i (u i) g F2 (used_not _ _ _) D2 R2 C2 B2 N2 K1 L V1) as (l' & K1'' & _ & K3'). rewrite K1' in K1''. injection K1'' as <-. exact K3'. }
  destruct L2 as (rest & K4 & K5 & K6). rewrite Y1 in K4. injection K4 as ->. cbn [la_vals] in *.
  assert (EQ : forall i, i < length (tk_X tk) -> nth i left 0%Qc = (nth i ys 0 - v i)%Qc /\ nth i rest 0%Qc = (nth i ys 0 - v i - u i)%Qc).
  { intros i L. rewrite <- (K3 i L). rewrite <- (K6 i L). split; ring. }
  exists left, rest, v, u, h3, e3. split; [exists o1, h, (set_seed P seed e); rewrite Q3, Q4; auto|]. split; auto.
  split. { exists (wo_forest o2). rewrite Q1, Q2. split; auto. assert (NPT : ~ patched (tk_w tk)) by (rewrite W; intros [Q|[Q|[Q|Q]]]; discriminate Q). destruct (plain_shape _ _ _ _ _ _ _ _ A2 NPT) as (_ & _ & _ & _ & L & _). apply L. unfold passes, call_args. apply in_or_app. left. cbn. tauto. }
  split; auto. split; [congruence|]. split; [intros i L; destruct (EQ i L); auto|]. rewrite T1, T2.
  split; do 2 f_equal; apply map_ext_in; intros i I; apply in_seq in I; cbv zeta; destruct (EQ i ltac:(lia)) as [_ ->]; reflexivity.
Qed.

(** ** All seeds: the labels drain *)
Theorem labels_drain M P tk : tk_w tk = GBHistogramRandomForestRegressor -> tk_theirs tk = true -> forall n h e l h' e' ys, nth_error h (tk_y tk) = Some {| la_int := false; la_vals := ys |} ->
  rounds M P tk n h e = Ok (l, h', e') -> exists rest, nth_error h' (tk_y tk) = Some {| la_int := false; la_vals := rest |} /\ length l = n /\ length rest = length ys /\
    forall i, i < length (tk_X tk) -> exists vs, Forall2 (fun ab v => foresees (fst ab) (nth i (tk_X tk) []) (fst v) /\ exists b, snd ab = Some b /\ foresees b (nth i (tk_X tk) []) (snd v)) l vs /\
      (nth i rest 0 + total (map (fun v => fst v + snd v) vs))%Qc = nth i ys 0%Qc.
Proof.
  intros W TH n h e l h' e' ys HY H. unfold rounds in H. revert l h' e' H. induction n as [|n IH]; intros l h' e' H.
  - cbn in H. apply ok_inv in H. apply pair_equal_spec in H. destruct H as [H <-]. apply pair_equal_spec in H. destruct H as [<- <-]. exists ys. repeat split; auto. intros i L. exists []. split; [constructor|]. cbn. ring.
  - rewrite seq_S in H. rewrite foldM_app in H. apply rbind_ok in H. destruct H as [[[l0 h0] e0] [E H]]. destruct (IH _ _ _ E) as (r0 & R0 & L0 & LR & V0). cbn [plus foldM] in H.
    apply rbind_ok in H. destruct H as [[[l1 h1] e1] [E1 H]]. apply ok_inv in H. apply pair_equal_spec in H. destruct H as [H <-]. apply pair_equal_spec in H. destruct H as [<- <-].
    unfold one_more in E1. apply rbind_ok in E1. destruct E1 as [[[[a b] h2] e2] [ER E1]]. apply ok_inv in E1. apply pair_equal_spec in E1. destruct E1 as [E1 <-]. apply pair_equal_spec in E1. destruct E1 as [<- <-].
    destruct b as [b|]; [|destruct (round_apart _ _ _ _ _ _ _ _ _ _ ER) as (o1 & o2 & x1 & x2 & x3 & f1 & e3 & [_ _ _ _ A5]); destruct A5 as [A5 _]; congruence].
    destruct (boosted_round M P tk n h0 e0 a b h2 e2 r0 W R0 ER) as (left & rest & v & u & h3 & e3 & _ & _ & _ & R2 & L2 & VU & _). exists rest. split; auto.
    split; [rewrite app_length; cbn; lia|]. split; [congruence|]. intros i L. destruct (VU i L) as (F1 & F2 & _ & EQ). destruct (V0 i L) as (vs & FA & SUM). exists (vs ++ [(v i, u i)]). split.
    + apply Forall2_app; auto. constructor; [|constructor]. cbn. split; eauto.
    + rewrite map_app. rewrite !total_qsum in *. rewrite qsum_app. cbn [map qsum fold_right fst snd] in *. rewrite EQ. rewrite <- SUM. ring.
Qed.

(** ** The verdict *)
Lemma const_std M l x : (m_sqrt M 0 = 0)%Qc -> (forall y, In y l -> y = x) -> xstd M l = Fin 0%Qc \/ xstd M l = NaN.
Proof.
  intros S0 C. unfold xstd. assert (L : l = repeat x (length l)). { clear S0. induction l as [|y l IH]; cbn; auto. f_equal; [apply C; now left|apply IH; intros; apply C; now right]. }
  destruct l as [|y l]; [right; reflexivity|]. clear C. rewrite L. set (n := length (y :: l)). assert (N0 : Nq n <> 0%Qc) by (apply Nq_neq0; cbn; lia). clearbody n. clear L y l.
  assert (SUMF : forall q k, xsum (repeat (Fin q) k) = Fin (Nq k * q)%Qc).
  { intros q k. induction k as [|k IH]; cbn [repeat xsum fold_right]; [f_equal; rewrite Nq_0; ring|]. fold (xsum (repeat (Fin q) k)). rewrite IH. cbn [xadd]. f_equal. rewrite Nq_S. ring. }
  destruct n as [|n]; [right; reflexivity|].
  assert (BAD : forall z, z = NaN \/ z = PInf \/ z = NInf -> xsum (repeat z (S n)) = z).
  { intros z Z. induction n as [|m IH]; [destruct Z as [->|[->| ->]]; reflexivity|]. change (repeat z (S (S m))) with (z :: repeat z (S m)). cbn [xsum fold_right]. fold (xsum (repeat z (S m))). rewrite IH; [destruct Z as [->|[->| ->]]; reflexivity|]. apply Nq_neq0. lia. }
  unfold xmean. rewrite map_length, repeat_length.
  assert (MR : forall f : xn -> xn, map f (repeat x (S n)) = repeat (f x) (S n)) by (intros f; generalize (S n); intros k; induction k; cbn; congruence).
  rewrite MR. destruct x as [q| | |].
  - left. rewrite SUMF. rewrite xdiv_fin by auto. cbn [xsub xadd xopp xmul]. rewrite SUMF. rewrite xdiv_fin by auto. cbn [xsqrt].
    assert (Z : (Nq (S n) * ((q + - (Nq (S n) * q / Nq (S n))) * (q + - (Nq (S n) * q / Nq (S n)))) / Nq (S n) = 0)%Qc) by (replace (q + - (Nq (S n) * q / Nq (S n)))%Qc with 0%Qc by (field; exact N0); field; exact N0). rewrite Z. cbn. now rewrite S0.
  - right. rewrite (BAD PInf) by tauto. cbn [xdiv]. destruct (qeq (Nq (S n)) 0) eqn:Q; [apply qeq_spec in Q; contradiction|]. assert (P : xsign (Nq (S n)) = Gt) by (apply Qcgt_alt, Nq_pos; lia). rewrite P. cbn [xinf_mul xsub xadd xopp xmul]. rewrite (BAD NaN) by tauto. reflexivity.
  - right. rewrite (BAD NInf) by tauto. cbn [xdiv]. destruct (qeq (Nq (S n)) 0) eqn:Q; [apply qeq_spec in Q; contradiction|]. assert (P : xsign (Nq (S n)) = Gt) by (apply Qcgt_alt, Nq_pos; lia). rewrite P. cbn [xinf_mul xsub xadd xopp xmul]. rewrite (BAD NaN) by tauto. reflexivity.
  - right. rewrite (BAD NaN) by tauto. cbn [xdiv xsub xadd xopp xmul]. rewrite (BAD NaN) by tauto. reflexivity.
Qed.
Lemma still_zero M l k x : (m_sqrt M 0 = 0)%Qc -> (forall y, In y l -> y = x) -> st_std (stat_of M k l) = Fin 0%Qc \/ st_std (stat_of M k l) = NaN.
Proof.
  intros S0 C. unfold stat_of. cbn [st_std]. destruct (const_std M l x S0 C) as [-> | ->]; [|right; reflexivity]. destruct (xsqrt M (Fin (Nq k))) as [q| | |]; cbn; auto.
  destruct (qeq q 0) eqn:Q; [right; reflexivity|left]. f_equal. unfold Qcdiv. ring.
Qed.
(** No spread, no overlap: in particular with one seed. *)
Theorem no_spread_no_overlap M P tk n h e rp h' e' x y : (m_sqrt M 0 = 0)%Qc -> tk_theirs tk = true -> compare M P tk n h e = Ok (rp, h', e') ->
  (forall ab v, In ab (rp_rounds rp) -> en_test (fst ab) = Some v -> v = x) -> (forall ab b v, In ab (rp_rounds rp) -> snd ab = Some b -> en_test b = Some v -> v = y) -> rp_overlap rp = Some false.
Proof.
  intros S0 TH H C1 C2. unfold compare in H. apply rbind_ok in H. destruct H as [[[l h2] e2] [E H]]. cbv zeta in H. rewrite TH in H. unfold side_of in H. cbn [sd_test] in H. destruct (tk_predict tk); [|discriminate H].
  apply ok_inv in H. apply pair_equal_spec in H. destruct H as [H _]. apply pair_equal_spec in H. destruct H as [<- _]. cbn [rp_overlap rp_rounds] in *. f_equal.
  assert (SM : forall A (l : list (option A)) a, In a (somes l) -> In (Some a) l). { intros A l0 a. induction l0 as [|[b|] l0 IH]; cbn; intuition congruence. }
  destruct (still_zero M (somes (map en_test (map fst l))) n x S0) as [Z1|Z1].
  { intros v I. apply SM in I. apply in_map_iff in I. destruct I as (a & EA & I). apply in_map_iff in I. destruct I as (ab & <- & I). eauto. }
  all: destruct (still_zero M (somes (map en_test (somes (map snd l)))) n y S0) as [Z2|Z2];
    [intros v I; apply SM in I; apply in_map_iff in I; destruct I as (a & EA & I); apply SM in I; apply in_map_iff in I; destruct I as (ab & EB & I); eauto|..];
    unfold overlap_of; rewrite Z1, Z2; cbn [xadd]; destruct (xabs _) eqn:XA; cbn [xlt]; auto.
  - unfold xabs in XA. destruct (xsub _ _) as [q0| | |]; try discriminate XA. destruct (qlt q0 0) eqn:Q.
    + injection XA as <-. apply qlt_false. apply qlt_spec in Q. replace (0 + 0)%Qc with 0%Qc by ring. apply Qclt_le_weak. apply Qclt_minus_iff in Q. replace (- q0)%Qc with (0 + - q0)%Qc by ring. exact Q.
    + injection XA as <-. apply qlt_false in Q. apply qlt_false. replace (0 + 0)%Qc with 0%Qc by ring. exact Q.
  - unfold xabs in XA. destruct (xsub _ _) as [q0| | |]; try discriminate XA. destruct (qlt q0 0); discriminate XA.
Qed.
Theorem one_seed_no_overlap M P tk h e rp h' e' : (m_sqrt M 0 = 0)%Qc -> tk_theirs tk = true -> compare M P tk 1 h e = Ok (rp, h', e') -> rp_overlap rp = Some false.
Proof.
  intros S0 TH H. assert (L : exists ab, rp_rounds rp = [ab]).
  { unfold compare in H. apply rbind_ok in H. destruct H as [[[l h2] e2] [E H]]. cbv zeta in H. rewrite TH in H.
    assert (RL : rp_rounds rp = l). { destruct (sd_test _); [|discriminate H]. destruct (sd_test _); [|discriminate H]. apply ok_inv in H. apply pair_equal_spec in H. destruct H as [H _]. apply pair_equal_spec in H. destruct H as [<- _]. reflexivity. }
    rewrite RL. unfold rounds in E. cbn [seq foldM] in E. apply rbind_ok in E. destruct E as [s [E1 E]]. apply ok_inv in E. subst s. unfold one_more in E1. apply rbind_ok in E1. destruct E1 as [[[[a b] h3] e3] [_ E1]]. apply ok_inv in E1. apply pair_equal_spec in E1. destruct E1 as [E1 _]. apply pair_equal_spec in E1. destruct E1 as [<- _]. exists (a, b). reflexivity. }
  destruct L as ([a b] & L). eapply (no_spread_no_overlap M P tk 1 h e rp h' e' (match en_test a with Some v => v | None => NaN end) (match b with Some x => match en_test x with Some v => v | None => NaN end | None => NaN end)); eauto; rewrite L.
  - intros ab v [<-|[]] Q. cbn in Q. now rewrite Q.
  - intros ab x v [<-|[]] Q1 Q2. cbn in Q1. now rewrite Q1, Q2.
Qed.
(** The verdict needs the scores on the test set. *)
Theorem verdict_needs_predict M P tk n h e rp h' e' : tk_theirs tk = true -> tk_predict tk = false -> compare M P tk n h e <> Ok (rp, h', e').
Proof.
  intros TH PR H. unfold compare in H. apply rbind_ok in H. destruct H as [[[l h2] e2] [E H]]. cbv zeta in H. rewrite TH in H. unfold side_of in H. rewrite PR in H. cbn [sd_test] in H. discriminate H.
Qed.

(** The bandit search when its confidence intervals are right. *)
From Coq Require Import List Arith Bool ZArith QArith Qcanon Lia Permutation Sorted.
From Verif Require Import Base Num Rng Histogram Utils Criteria Solvers Spec SolverSpec TrustSpec NumFacts ListFacts HistFacts HistAdd CritFacts ReductionFacts MakeHist SampleFacts HistProps HistProps2 ExactFacts ExactTotal ExactProps DrawFacts MabFacts MabLoop MabProps MabMore MabSim MabThms.
Import ListNotations.
Local Open Scope nat_scope.

(** ** Minima *)
Lemma xmin_list_spec l m : xmin_list l = Ok m -> (forall x, In x l -> is_nan x = false) ->
  In m l /\ forall x, In x l -> xle m x = true.
Proof.
  intros H NN. apply xnanmin_list_spec; auto. destruct l as [|a l]; [discriminate|]. cbn in *. injection H as <-. f_equal.
  assert (NA : is_nan a = false) by (apply NN; now left).
  assert (NL : forall x, In x l -> is_nan x = false) by (intros; apply NN; now right). clear NN. revert a NA.
  induction l as [|b l IH]; intros a NA; cbn [fold_left]; auto.
  assert (NB : is_nan b = false) by (apply NL; now left).
  assert (E : xnanmin2 a b = xmin2 a b) by (unfold xnanmin2, xmin2; rewrite NA, NB; reflexivity). rewrite E. apply IH.
  - intros; apply NL; now right.
  - unfold xmin2. rewrite NA, NB. destruct (xlt b a); auto.
Qed.

Lemma argmin_from_spec l : forall i best bv, is_nan bv = false -> (forall x, In x l -> is_nan x = false) ->
  let r := argmin_from i best bv l in
  exists y, (r = best /\ y = bv \/ exists j, r = i + j /\ nth_error l j = Some y) /\
    xle y bv = true /\ forall x, In x l -> xle y x = true.
Proof.
  induction l as [|a l IH]; intros i best bv NB NL; cbn [argmin_from]; cbv zeta.
  - exists bv. split; auto. split; [now apply xle_refl|]. intros x [].
  - rewrite NB. assert (NA : is_nan a = false) by (apply NL; now left). rewrite NA.
    destruct (xlt a bv) eqn:E.
    + destruct (IH (S i) i a NA (fun x Hx => NL x (or_intror Hx))) as [y [Y1 [Y2 Y3]]]. exists y. split.
      * right. destruct Y1 as [[-> ->]|[j [-> Hj]]]; [exists 0; split; [lia|reflexivity]|exists (S j); split; [lia|exact Hj]].
      * split; [eapply xle_trans; [exact Y2|now apply xlt_xle]|]. intros x [<-|I]; auto.
    + destruct (IH (S i) best bv NB (fun x Hx => NL x (or_intror Hx))) as [y [Y1 [Y2 Y3]]]. exists y. split.
      * destruct Y1 as [Y1|[j [-> Hj]]]; auto. right. exists (S j). split; [lia|exact Hj].
      * split; auto. intros x [<-|I]; auto. eapply xle_trans; [exact Y2|now apply xnlt_xle].
Qed.
Lemma argmin_spec l r : argmin l = Ok r -> (forall x, In x l -> is_nan x = false) ->
  exists y, nth_error l r = Some y /\ forall x, In x l -> xle y x = true.
Proof.
  destruct l as [|a l]; [discriminate|]. cbn [argmin]. intros H NL. injection H as <-.
  destruct (argmin_from_spec l 1 0 a (NL a (or_introl eq_refl)) (fun x Hx => NL x (or_intror Hx))) as [y [Y1 [Y2 Y3]]]. exists y. split.
  - destruct Y1 as [[-> ->]|[j [-> Hj]]]; auto.
  - intros x [<-|I]; auto.
Qed.

Lemma cell_at F B a : a < F * B -> nth_error (cells F B) a = Some (a / B, a mod B).
Proof.
  unfold cells. intros H. assert (HB : B <> 0) by nia.
  assert (G : forall n s a, a < n * B -> nth_error (list_prod (seq s n) (seq 0 B)) a = Some (s + a / B, a mod B)).
  { clear a H. induction n as [|n IH]; intros s a H; [cbn in H; lia|]. cbn [seq list_prod].
    destruct (le_lt_dec B a) as [L|L].
    - rewrite nth_error_app2 by (rewrite map_length, seq_length; auto). rewrite map_length, seq_length, IH by (cbn in H; lia).
      assert (Q : a = (a - B) + 1 * B) by lia. rewrite Q at 3 4. rewrite Nat.div_add, Nat.mod_add by auto. f_equal. f_equal. lia.
    - rewrite nth_error_app1 by (rewrite map_length, seq_length; auto). rewrite nth_error_map.
      rewrite (nth_error_nth' (seq 0 B) 0) by now rewrite seq_length. rewrite seq_nth by auto. cbn [option_map].
      rewrite Nat.div_small, Nat.mod_small by auto. f_equal. f_equal. lia. }
  rewrite G by auto. reflexivity.
Qed.

Lemma sample_inv M k s s' brk : sample_block M k s = Ok (s', brk) ->
  exists r, sample_targets M (mc_measure k) (mc_data k) (mc_labels k) (ms_cand s) (ms_hists s) (mc_batch k) (ms_pop s) (ms_gen s) = Ok r /\
    length (ms_cand s) = length (sr_ir r) /\ length (ms_cand s) = length (sub_const (sr_ir r) (sr_cb r)) /\
    length (ms_cand s) = length (add_const (sr_ir r) (sr_cb r)) /\
    ms_est s' = upds (ms_est s) (ms_cand s) (sr_ir r) /\
    ms_lcb s' = upds (ms_lcb s) (ms_cand s) (sub_const (sr_ir r) (sr_cb r)) /\
    ms_ucb s' = upds (ms_ucb s) (ms_cand s) (add_const (sr_ir r) (sr_cb r)) /\
    ms_exact s' = ms_exact s /\ ms_hists s' = sr_hists r /\ ms_pop s' = sr_pop r /\ ms_q s' = ms_q s + sr_q r /\
    (brk = true -> ms_cand s' = ms_cand s) /\
    (brk = false -> exists um a, xmin_list (flat (mc_F k) (mc_B k) (ms_ucb s')) = Ok um /\ argmin (flat (mc_F k) (mc_B k) (ms_est s')) = Ok a /\
       ms_cand s' = next_cand k s (ms_est s') (ms_lcb s') um (a / mc_B k, a mod mc_B k)).
Proof.
  unfold sample_block. intros H. apply rbind_ok in H. destruct H as [acc [EA H]].
  assert (acc = ms_cand s) by (unfold accesses in EA; destruct (ms_cand s); [discriminate|now injection EA]). subst acc.
  apply rbind_ok in H. destruct H as [r [ER H]]. exists r. split; auto.
  apply rbind_ok in H. destruct H as [est [EE H]]. apply rbind_ok in H. destruct H as [lcb [EL H]].
  apply rbind_ok in H. destruct H as [ucb [EU H]].
  apply assign_ok in EE. destruct EE as [LA [RA ->]]. apply assign_ok in EL. destruct EL as [LL [_ ->]]. apply assign_ok in EU. destruct EU as [LU [_ ->]].
  split; auto. split; auto. split; auto.
  destruct (over_budget _ _); [injection H as <- <-; cbn; repeat (split; auto); discriminate|].
  apply rbind_ok in H. destruct H as [lm [_ H]]. destruct (xlt (Fin 0) lm); [injection H as <- <-; cbn; repeat (split; auto); discriminate|].
  apply rbind_ok in H. destruct H as [ai [EI H]]. apply rbind_ok in H. destruct H as [um [EM H]]. injection H as <- <-.
  cbn [ms_est ms_ucb ms_pop ms_q ms_cand ms_lcb ms_exact ms_hists]. repeat (split; [first [reflexivity|discriminate]|]). intros _. exists um, ai. split; auto.
Qed.

Section Trust.
Context (M : math) (k : mcfg) (hs0 : list hist) (ic : bool) (cl : list Qc) (SC : static k hs0 ic cl) (EPS : mc_eps k = 0%Qc).
Notation F := (mc_F k). Notation B := (mc_B k). Notation N := (mc_N k).
Notation arm := (is_arm hs0). Notation busy := (busy k hs0). Notation tc := (true_change M k ic).
Notation minv := (minv M k hs0 ic cl). Notation started := (started M k hs0 ic).

(** The actual change lies within the interval. *)
Definition truth (s : mstate) : Prop := forall f b v, edge_at hs0 f b v ->
  exists l u, ms_lcb s f b = Fin l /\ ms_ucb s f b = Fin u /\ (l <= tc f v)%Qc /\ (tc f v <= u)%Qc.
(** The interval is centred at the estimate. *)
Definition centred (s : mstate) : Prop := forall f b, arm f b ->
  exists x c, ms_est s f b = Fin x /\ ms_lcb s f b = xsub (Fin x) c /\ ms_ucb s f b = xadd (Fin x) c.
Definition tight (s : mstate) : Prop := forall f b v, edge_at hs0 f b v ->
  exists x d, ms_est s f b = Fin x /\ ms_lcb s f b = Fin (x - d)%Qc /\ ms_ucb s f b = Fin (x + d)%Qc /\
    (x - d <= tc f v)%Qc /\ (tc f v <= x + d)%Qc.
Definition outs (s : mstate) : Prop := forall f b, f < F -> b < B -> ~ arm f b -> ms_ucb s f b = PInf.

Lemma truth_tight s : truth s -> centred s -> tight s.
Proof.
  intros T C f b v E. assert (A : arm f b) by (apply (arm_edge_at _ _ _ _ SC); eauto).
  destruct (T f b v E) as [l [u [L [U [H1 H2]]]]]. destruct (C f b A) as [x [c [X1 [X2 X3]]]].
  rewrite X2 in L. rewrite X3 in U. destruct c as [d| | |]; try discriminate. cbn in L, U. injection L as <-. injection U as <-.
  exists x, d. rewrite X2, X3. repeat (split; auto).
Qed.
Lemma tight_centred s : tight s -> centred s.
Proof.
  intros T f b A. destruct (proj1 (arm_edge_at _ _ _ _ SC f b) A) as [v E]. destruct (T f b v E) as [x [d [H1 [H2 [H3 _]]]]].
  exists x, (Fin d). auto.
Qed.

(** The least upper bound. *)
Lemma least_upper s um : tight s -> outs s -> (exists f b, arm f b) -> xmin_list (flat F B (ms_ucb s)) = Ok um ->
  exists f b v u, edge_at hs0 f b v /\ ms_ucb s f b = Fin u /\ um = Fin u /\
    forall f' b' v' u', edge_at hs0 f' b' v' -> ms_ucb s f' b' = Fin u' -> (u <= u')%Qc.
Proof.
  intros T O [f0 [b0 A0]] H.
  assert (NN : forall x, In x (flat F B (ms_ucb s)) -> is_nan x = false).
  { intros x I. unfold flat in I. apply in_map_iff in I. destruct I as [[f b] [<- I]]. apply cells_in in I. cbn [fst snd].
    destruct (arm_dec hs0 f b) as [A|A]; [|rewrite O by tauto; reflexivity].
    destruct (proj1 (arm_edge_at _ _ _ _ SC f b) A) as [v E]. destruct (T f b v E) as [x [d [_ [_ [-> _]]]]]. reflexivity. }
  destruct (xmin_list_spec _ _ H NN) as [I L].
  assert (IN : forall f b, arm f b -> In (ms_ucb s f b) (flat F B (ms_ucb s))).
  { intros f b A. unfold flat. apply in_map_iff. exists (f, b). split; auto. apply cells_in. eapply arm_range; eauto. }
  unfold flat in I. apply in_map_iff in I. destruct I as [[f b] [E I]]. apply cells_in in I. cbn [fst snd] in E.
  destruct (arm_dec hs0 f b) as [A|A].
  - destruct (proj1 (arm_edge_at _ _ _ _ SC f b) A) as [v EA]. destruct (T f b v EA) as [x [d [_ [_ [U _]]]]].
    exists f, b, v, (x + d)%Qc. split; auto. split; auto. split; [congruence|]. intros f' b' v' u' E' U'.
    assert (A' : arm f' b') by (apply (arm_edge_at _ _ _ _ SC); eauto). specialize (L _ (IN f' b' A')).
    rewrite <- E, U, U' in L. now apply xle_fin.
  - exfalso. rewrite O in E by tauto. subst um. specialize (L _ (IN f0 b0 A0)).
    destruct (proj1 (arm_edge_at _ _ _ _ SC f0 b0) A0) as [v EA]. destruct (T f0 b0 v EA) as [x [d [_ [_ [U _]]]]]. rewrite U in L. discriminate.
Qed.

(** Without a tolerance, no candidate is dropped as tied. *)
Lemma no_ties s a f b : (forall f b, f < F -> b < B -> is_nan (ms_est s f b) = false) ->
  (exists f b x, f < F /\ b < B /\ ms_est s f b = Fin x) ->
  argmin (flat F B (ms_est s)) = Ok a -> f < F -> b < B -> tied k (ms_est s) (a / B, a mod B) f b = false.
Proof.
  intros NN [f0 [b0 [x0 [Hf0 [Hb0 E0]]]]] H Hf Hb.
  assert (NL : forall x, In x (flat F B (ms_est s)) -> is_nan x = false).
  { intros x I. unfold flat in I. apply in_map_iff in I. destruct I as [[f' b'] [<- I]]. apply cells_in in I. cbn. now apply NN. }
  destruct (argmin_spec _ _ H NL) as [y [Y1 Y2]].
  assert (LT : a < F * B). { rewrite <- cells_length. rewrite <- (map_length (fun c => ms_est s (fst c) (snd c))). apply nth_error_Some. unfold flat in Y1. congruence. }
  unfold flat in Y1. rewrite nth_error_map, cell_at in Y1 by auto. cbn [option_map fst snd] in Y1. injection Y1 as Y1.
  assert (IN : forall f b, f < F -> b < B -> In (ms_est s f b) (flat F B (ms_est s))).
  { intros. unfold flat. apply in_map_iff. exists (f1, b1). split; auto. now apply cells_in. }
  unfold tied, upd. cbn [fst snd]. rewrite EPS, Y1. destruct (Nat.eqb f (a / B) && Nat.eqb b (a mod B)); auto.
  pose proof (Y2 _ (IN f0 b0 Hf0 Hb0)) as Q0. rewrite E0 in Q0. pose proof (Y2 _ (IN f b Hf Hb)) as Q. specialize (NN f b Hf Hb).
  destruct y as [y| | |]; try discriminate.
  - cbn [xmul]. replace ((1 - 0) * y)%Qc with y by ring. destruct (ms_est s f b) as [x| | |]; try discriminate; auto.
    cbn [xlt]. apply xle_fin in Q. destruct (qlt x y) eqn:Z; auto. apply qlt_spec in Z. exfalso. qlra.
  - cbn [xmul]. cbn. destruct (ms_est s f b); reflexivity.
Qed.

(** ** What is known of the candidates *)
Context (t : Qc) (TA : exists f b v, edge_at hs0 f b v /\ tc f v = t) (TL : forall f b v, edge_at hs0 f b v -> (t <= tc f v)%Qc).

(** Some best candidate is still considered, or has its actual change as estimate. *)
Definition best_kept (s : mstate) : Prop := (t < mc_mir k)%Qc ->
  exists f b v, edge_at hs0 f b v /\ tc f v = t /\ (In (f, b) (ms_cand s) \/ ms_est s f b = Fin t).
(** A candidate no longer considered cannot be better. *)
Definition dropped_ok (s : mstate) : Prop := forall f b v, edge_at hs0 f b v -> ~ In (f, b) (ms_cand s) ->
  ms_est s f b = Fin (tc f v) \/ exists l, ms_lcb s f b = Fin l /\ ((t <= l)%Qc \/ (mc_mir k <= l)%Qc).

Lemma next_ok s um : tight s -> outs s -> xmin_list (flat F B (ms_ucb s)) = Ok um ->
  (forall f b v, edge_at hs0 f b v -> ~ In (f, b) (ms_cand s) ->
     ms_est s f b = Fin (tc f v) \/ exists l, ms_lcb s f b = Fin l /\ (xlt (Fin l) um = false \/ (mc_mir k <= l)%Qc)) ->
  best_kept s /\ dropped_ok s.
Proof.
  intros T O H A. destruct TA as [f0 [b0 [v0 [E0 T0]]]].
  assert (A0 : exists f b, arm f b) by (exists f0, b0; apply (arm_edge_at _ _ _ _ SC); eauto).
  destruct (least_upper s um T O A0 H) as [f1 [b1 [v1 [u [E1 [U1 [-> UL]]]]]]].
  destruct (T f1 b1 v1 E1) as [x1 [d1 [X1 [X2 [X3 [X4 X5]]]]]]. rewrite X3 in U1. injection U1 as <-.
  pose proof (TL f1 b1 v1 E1) as T1.
  assert (NL : forall l u, xlt (Fin l) (Fin u) = false -> (u <= l)%Qc).
  { intros l u Z. cbn in Z. now apply qlt_false. }
  split.
  - intros TM. destruct (in_dec cell_eq_dec (f0, b0) (ms_cand s)) as [I|I]; [exists f0, b0, v0; auto|].
    destruct (A f0 b0 v0 E0 I) as [Q|[l [L Q]]]; [exists f0, b0, v0; rewrite T0 in Q; auto|].
    destruct (T f0 b0 v0 E0) as [x0 [d0 [Y1 [Y2 [Y3 [Y4 Y5]]]]]]. rewrite Y2 in L. injection L as <-. rewrite T0 in *.
    destruct Q as [Q|Q]; [|exfalso; qlra]. apply NL in Q.
    assert (T1' : tc f1 v1 = t) by (apply qle_antisym; qlra).
    destruct (in_dec cell_eq_dec (f1, b1) (ms_cand s)) as [I1|I1]; [exists f1, b1, v1; auto|].
    exists f1, b1, v1. split; auto. split; auto. right.
    destruct (A f1 b1 v1 E1 I1) as [Q1|[l [L Q1]]]; [congruence|]. rewrite X2 in L. injection L as <-.
    destruct Q1 as [Q1|Q1]; [|exfalso; qlra]. apply NL in Q1. rewrite X1. f_equal. apply qle_antisym; qlra.
  - intros f b v E I. destruct (A f b v E I) as [Q|[l [L Q]]]; auto. right. exists l. split; auto. destruct Q as [Q|Q]; auto.
    left. apply NL in Q. qlra.
Qed.

Definition known (s : mstate) : Prop := outs s /\ best_kept s /\ dropped_ok s.

(** *** The sampling block *)
Lemma sampled_values s s' brk : minv s -> ms_pop s <> Some [] -> sample_block M k s = Ok (s', brk) ->
  initial hs0 s \/ centred s -> centred s' /\
  (forall f b, ~ In (f, b) (ms_cand s) -> ms_est s' f b = ms_est s f b /\ ms_lcb s' f b = ms_lcb s f b /\ ms_ucb s' f b = ms_ucb s f b).
Proof.
  intros I NP H IS. destruct (sample_inv _ _ _ _ _ H) as [r [ER [L1 [L2 [L3 [E1 [E2 [E3 _]]]]]]]].
  assert (AR : forall f b, In (f, b) (ms_cand s) -> arm f b) by (intros; now apply (mi_cand _ _ _ _ _ _ I)).
  destruct (round_ok M k hs0 ic cl SC _ _ _ _ _ _ (mi_hists _ _ _ _ _ _ I) (mi_pop _ _ _ _ _ _ I) (mi_sorted _ _ _ _ _ _ I) AR (sc_batch _ _ _ _ SC) NP ER)
    as [_ [_ [_ [_ [irs [R5 [R6 [R7 _]]]]]]]].
  assert (OTH : forall f b, ~ In (f, b) (ms_cand s) -> ms_est s' f b = ms_est s f b /\ ms_lcb s' f b = ms_lcb s f b /\ ms_ucb s' f b = ms_ucb s f b).
  { intros f b J. rewrite E1, E2, E3, !upds_other by auto. auto. }
  split; auto. intros f b A. destruct (in_dec cell_eq_dec (f, b) (ms_cand s)) as [J|J].
  - pose proof (mi_nodup _ _ _ _ _ _ I) as ND.
    destruct (upds_in (ms_cand s) (sr_ir r) (ms_est s) f b ND L1 J) as [i [J1 J2]].
    destruct (upds_in (ms_cand s) _ (ms_lcb s) f b ND L2 J) as [i2 [K1 K2]].
    destruct (upds_in (ms_cand s) _ (ms_ucb s) f b ND L3 J) as [i3 [G1 G2]].
    assert (i2 = i /\ i3 = i).
    { assert (LI : i < length (ms_cand s)) by (apply nth_error_Some; congruence).
      split; symmetry; eapply (proj1 (NoDup_nth_error (ms_cand s))); eauto; congruence. }
    destruct H0 as [-> ->]. rewrite <- E1 in J2. rewrite <- E2 in K2. rewrite <- E3 in G2.
    assert (X : exists x, ms_est s' f b = Fin x).
    { rewrite R5, nth_error_map in J2. destruct (nth_error irs i) as [x|]; [|discriminate]. exists x. cbn in J2. congruence. }
    destruct X as [x X]. rewrite X in J2.
    destruct (nth_error (sr_cb r) i) as [c|] eqn:EC; [|apply nth_error_None in EC; rewrite R7 in EC; apply nth_error_None in EC; congruence].
    exists x, c. split; auto. pose proof (nth_error_combine _ _ _ _ _ J2 EC) as PC.
    unfold sub_const in K2. unfold add_const in G2. rewrite nth_error_map, PC in K2, G2. cbn [option_map fst snd] in K2, G2.
    split; congruence.
  - destruct IS as [[IS _]|IS]; [exfalso; apply J, IS, A|]. destruct (OTH f b J) as [-> [-> ->]]. now apply IS.
Qed.

Lemma tight_numbers s : tight s -> (forall f b, f < F -> b < B -> ~ arm f b -> ms_est s f b = PInf) ->
  forall f b, f < F -> b < B -> is_nan (ms_est s f b) = false.
Proof.
  intros T O f b Hf Hb. destruct (arm_dec hs0 f b) as [A|A]; [|rewrite O by auto; reflexivity].
  destruct (proj1 (arm_edge_at _ _ _ _ SC f b) A) as [v E]. destruct (T f b v E) as [x [d [-> _]]]. reflexivity.
Qed.
Lemma some_arm : exists f b v, edge_at hs0 f b v /\ arm f b /\ f < F /\ b < B.
Proof.
  destruct TA as [f0 [b0 [v0 [E0 _]]]]. assert (A : arm f0 b0) by (apply (arm_edge_at _ _ _ _ SC); eauto).
  exists f0, b0, v0. split; auto. split; auto. eapply arm_range; eauto.
Qed.

Lemma sample_trust s s' brk : minv s -> minv s' -> ms_pop s <> Some [] -> sample_block M k s = Ok (s', brk) ->
  initial hs0 s \/ tight s -> known s -> truth s' -> tight s' /\ known s'.
Proof.
  intros I I' NP H IS [KO [KB KD]] TR.
  destruct (sampled_values s s' brk I NP H) as [C OTH]; [destruct IS; [left|right; apply tight_centred]; auto|].
  pose proof (truth_tight s' TR C) as T'. split; auto.
  assert (AR : forall f b, In (f, b) (ms_cand s) -> arm f b) by (intros; now apply (mi_cand _ _ _ _ _ _ I)).
  assert (O' : outs s').
  { intros f b Hf Hb NA. destruct (OTH f b) as [_ [_ ->]]; auto. }
  split; auto. destruct (sample_inv _ _ _ _ _ H) as [r [ER [_ [_ [_ [_ [_ [_ [EX [_ [_ [_ [EB EN]]]]]]]]]]]]].
  destruct brk.
  - specialize (EB eq_refl). split.
    + intros TM. destruct (KB TM) as [f [b [v [E1 [E2 E3]]]]]. exists f, b, v. split; auto. split; auto. rewrite EB.
      destruct (in_dec cell_eq_dec (f, b) (ms_cand s)) as [J|J]; auto. destruct E3 as [E3|E3]; auto. right. now rewrite (proj1 (OTH f b J)).
    + intros f b v E J. rewrite EB in J. destruct (OTH f b J) as [-> [-> _]]. now apply KD.
  - destruct (EN eq_refl) as [um [a [EM [EA EC]]]]. apply (next_ok s' um); auto.
    intros f b v E J. assert (A : arm f b) by (apply (arm_edge_at _ _ _ _ SC); eauto). destruct (arm_range _ _ _ _ SC f b A) as [Hf Hb].
    destruct (ms_exact s f b) eqn:X.
    { left. apply (mi_true _ _ _ _ _ _ I'); auto. now rewrite EX. }
    destruct (T' f b v E) as [x [d [X1 [X2 [X3 _]]]]]. right. exists (x - d)%Qc. split; auto.
    destruct (xlt (Fin (x - d)) um) eqn:XU; auto. right.
    destruct (qlt (x - d) (mc_mir k)) eqn:XM; [|now apply qlt_false]. exfalso. apply J. rewrite EC. unfold next_cand. apply filter_In.
    split; [apply cells_in; auto|]. cbn [fst snd]. rewrite X, X2, XU. cbn [xlt negb andb]. rewrite XM. cbn [andb].
    rewrite (no_ties s' a f b); auto.
    + apply tight_numbers; auto. apply I'.
    + destruct some_arm as [f0 [b0 [v0 [E0 [_ [Hf0 Hb0]]]]]]. destruct (T' f0 b0 v0 E0) as [x0 [d0 [Y _]]]. exists f0, b0, x0. auto.
Qed.

(** *** The exact block *)
Lemma exact_trust s s' brk : minv s -> minv s' -> mc_repl k = true -> exact_block M k s = Ok (s', brk) ->
  initial hs0 s \/ tight s -> known s -> (initial hs0 s' /\ s' = s /\ brk = false \/ tight s') /\ known s'.
Proof.
  intros I I' RT H IS KN. unfold exact_block in H. cbv zeta in H.
  set (acc := filter _ (cells F B)) in H.
  assert (AI : forall f b, In (f, b) acc <-> f < F /\ b < B /\ N <= ms_ns s f b + mc_batch k /\ ms_exact s f b = false).
  { intros f b. unfold acc. rewrite filter_In, cells_in. cbn [fst snd]. rewrite andb_true_iff, negb_true_iff, Nat.leb_le. tauto. }
  destruct (length acc =? 0) eqn:EZ.
  { injection H as <- <-. split; auto. destruct IS; auto. }
  apply Nat.eqb_neq in EZ.
  apply rbind_ok in H. destruct H as [hs [EH H]]. apply rbind_ok in H. destruct H as [r [ER H]].
  apply rbind_ok in H. destruct H as [est [EE H]]. apply rbind_ok in H. destruct H as [lcb [EL H]].
  apply rbind_ok in H. destruct H as [ucb [EU H]]. apply rbind_ok in H. destruct H as [um [EM H]].
  apply rbind_ok in H. destruct H as [lm [_ H]]. apply ok_pair_inv in H. destruct H as [ES _].
  apply assign_ok in EE. destruct EE as [LA [RA EE]]. apply assign_ok in EL. destruct EL as [_ [_ EL]]. apply assign_ok in EU. destruct EU as [_ [_ EU]].
  assert (ND : NoDup acc) by apply NoDup_filter, cells_nodup.
  assert (AR : forall f b, In (f, b) acc -> arm f b) by (intros f b J; apply AI in J; apply (mi_exact _ _ _ _ _ _ I); tauto).
  assert (XE : forall f b, In (f, b) acc -> ms_exact s' f b = true) by (intros f b J; subst s'; cbn [ms_exact]; now apply upd_const_in).
  assert (EST : ms_est s' = upds (ms_est s) acc (sr_ir r)) by (subst s'; cbn [ms_est]; auto).
  assert (LCB : ms_lcb s' = upds (ms_lcb s) acc (sr_ir r)) by (subst s'; cbn [ms_lcb]; auto).
  assert (UCB : ms_ucb s' = upds (ms_ucb s) acc (sr_ir r)) by (subst s'; cbn [ms_ucb]; auto).
  assert (SAME : forall f b, In (f, b) acc -> ms_lcb s' f b = ms_est s' f b /\ ms_ucb s' f b = ms_est s' f b).
  { intros f b J. rewrite EST, LCB, UCB.
    destruct (upds_in acc (sr_ir r) (ms_est s) f b ND LA J) as [i [J1 J2]].
    destruct (upds_in acc (sr_ir r) (ms_lcb s) f b ND LA J) as [i2 [K1 K2]].
    destruct (upds_in acc (sr_ir r) (ms_ucb s) f b ND LA J) as [i3 [G1 G2]].
    assert (LI : i < length acc) by (apply nth_error_Some; congruence).
    assert (i2 = i /\ i3 = i) by (split; symmetry; eapply (proj1 (NoDup_nth_error acc)); eauto; congruence).
    destruct H as [-> ->]. split; congruence. }
  assert (T' : tight s').
  { intros f b v E. assert (A : arm f b) by (apply (arm_edge_at _ _ _ _ SC); eauto).
    destruct (in_dec cell_eq_dec (f, b) acc) as [J|J].
    - pose proof (mi_true _ _ _ _ _ _ I' f b v A (XE f b J) E) as V. destruct (SAME f b J) as [-> ->]. rewrite V.
      exists (tc f v), 0%Qc. split; auto. replace (tc f v - 0)%Qc with (tc f v) by ring. replace (tc f v + 0)%Qc with (tc f v) by ring.
      repeat (split; auto); apply qle_refl.
    - destruct IS as [[IS1 IS2]|IS].
      + exfalso. apply J. destruct acc as [|[f1 b1] ?] eqn:EAC; [cbn in EZ; lia|].
        pose proof (proj1 (AI f1 b1) (or_introl eq_refl)) as [_ [_ [G _]]]. rewrite IS2 in G. apply AI.
        destruct (arm_range _ _ _ _ SC f b A). split; auto. split; auto. rewrite IS2. split; auto. now apply IS1.
      + rewrite EST, LCB, UCB, !upds_other by auto. now apply IS. }
  split; [now right|]. destruct KN as [KO [KB KD]].
  assert (O' : outs s') by (intros f b Hf Hb NA; rewrite UCB, upds_other by auto; now apply KO).
  split; auto. apply (next_ok s' um); auto. { rewrite UCB, <- EU. exact EM. }
  intros f b v E J. assert (A : arm f b) by (apply (arm_edge_at _ _ _ _ SC); eauto). destruct (arm_range _ _ _ _ SC f b A) as [Hf Hb].
  destruct (ms_exact s' f b) eqn:X. { left. now apply (mi_true _ _ _ _ _ _ I'). }
  right. destruct (T' f b v E) as [x [d [X1 [X2 _]]]]. exists (x - d)%Qc. split; auto. left.
  destruct (xlt (Fin (x - d)) um) eqn:XU; auto. exfalso. apply J.
  assert (CA : ms_cand s' = filter (fun c => xlt (ms_lcb s' (fst c) (snd c)) um && negb (ms_exact s' (fst c) (snd c))) (cells F B)) by (subst s'; reflexivity).
  rewrite CA. apply filter_In. split; [apply cells_in; auto|]. cbn [fst snd]. now rewrite X2, XU, X.
Qed.

(** ** The loop *)
Lemma body_trust s s' brk : minv s -> initial hs0 s \/ started s -> in_budget k s -> 5 < length (ms_cand s) -> ms_pop s <> Some [] \/ tight s ->
  mab_body M k s = Ok (s', brk) -> initial hs0 s \/ tight s -> known s -> truth s' -> tight s' /\ known s'.
Proof.
  intros I IST IB L5 PT H IS KN TR. destruct (body_ok M k hs0 ic cl SC s s' brk I IST IB L5 H) as [I' _].
  unfold mab_body in H. apply rbind_ok in H. destruct H as [[s1 b1] [E1 H]].
  assert (C1 : minv s1 /\ (initial hs0 s1 /\ s1 = s /\ b1 = false \/ tight s1) /\ known s1 /\ (ms_pop s1 <> Some [] \/ tight s1)).
  { destruct (mc_repl k) eqn:R.
    - destruct (exact_block_ok M k hs0 ic cl SC s s1 b1 I R IST E1) as [A1 _].
      destruct (exact_trust s s1 b1 I A1 R E1 IS KN) as [Q1 Q2]. split; auto. split; auto. split; auto.
      left. pose proof (mi_pop _ _ _ _ _ _ A1) as P. unfold pop_ok in P. destruct (ms_pop s1); [destruct P; congruence|discriminate].
    - injection E1 as <- <-. split; auto. split; auto. destruct IS; auto. }
  destruct C1 as [I1 [IS1 [KN1 PT1]]].
  destruct b1; [injection H as <- <-; destruct IS1 as [[_ [_ Z]]|]; [discriminate|auto]|].
  destruct (length (ms_cand s1) <=? 1) eqn:L1.
  { injection H as <- <-. destruct IS1 as [[_ [-> _]]|]; auto. apply Nat.leb_le in L1. lia. }
  assert (NP : ms_pop s1 = Some [] \/ ms_pop s1 <> Some []) by (destruct (ms_pop s1) as [[|]|]; [left; reflexivity|right; discriminate..]).
  destruct NP as [NP|NP].
  - rewrite NP in H. injection H as <- <-. destruct PT1; [contradiction|auto].
  - assert (H' : sample_block M k s1 = Ok (s', brk)) by (destruct (ms_pop s1) as [[|]|]; [congruence|exact H..]).
    apply (sample_trust s1 s' brk); auto. destruct IS1 as [[? _]|]; auto.
Qed.

Lemma loop_trust fuel : forall s s', minv s -> initial hs0 s \/ started s -> in_budget k s -> ms_pop s <> Some [] \/ tight s ->
  initial hs0 s \/ tight s -> known s -> (forall s1, visited M k s s1 -> truth s1) -> mab_loop M k fuel s = Ok s' ->
  known s' /\ (5 < length (ms_cand s) \/ tight s -> tight s').
Proof.
  induction fuel as [|fuel IH]; intros s s' I IST IB PT IS KN VT H; cbn [mab_loop] in H; destruct (5 <? length (ms_cand s)) eqn:L5; try discriminate.
  - injection H as <-. apply Nat.ltb_ge in L5. split; auto. intros [?|?]; auto. lia.
  - apply Nat.ltb_lt in L5. apply rbind_ok in H. destruct H as [[s1 brk] [E H]].
    destruct (body_trust s s1 brk I IST IB L5 PT E IS KN) as [T1 K1]. { apply VT. eapply visited_first; eauto. }
    destruct brk; [injection H as <-; auto|].
    destruct (body_ok M k hs0 ic cl SC s s1 false I IST IB L5 E) as [I1 [_ [_ Q]]]. destruct (Q eq_refl) as [Q1 [Q2 _]].
    destruct (IH s1 s' I1 (or_intror Q2) Q1 (or_intror T1) (or_intror T1) K1) as [Z1 Z2]; auto.
    intros s2 V. apply VT. eapply visited_later; eauto.
  - injection H as <-. apply Nat.ltb_ge in L5. split; auto. intros [?|?]; auto. lia.
Qed.

(** At the end: an answer is nearly best. *)
Definition winner (s : mstate) (f b : nat) (x : Qc) : Prop :=
  ms_est s f b = Fin x /\ forall f' b' v' x', edge_at hs0 f' b' v' -> ms_est s f' b' = Fin x' -> (x <= x')%Qc.

Lemma near d s f b v x : tight s -> known s -> (0 <= d)%Qc -> edge_at hs0 f b v -> winner s f b x ->
  (forall f b v, In (f, b) (ms_cand s) -> edge_at hs0 f b v -> exists x, ms_est s f b = Fin x /\ (tc f v - d <= x)%Qc /\ (x <= tc f v + d)%Qc) ->
  if qlt x (mc_mir k) then (tc f v <= t + (d + d))%Qc else (mc_mir k - d <= t)%Qc.
Proof.
  intros T [KO [KB KD]] D0 E [WX WM] ACC.
  assert (BEST : (t < mc_mir k)%Qc -> (x <= t + d)%Qc).
  { intros TM. destruct (KB TM) as [f0 [b0 [v0 [E0 [T0 Q]]]]]. destruct Q as [Q|Q].
    - destruct (ACC f0 b0 v0 Q E0) as [x0 [X0 [_ X1]]]. pose proof (WM _ _ _ _ E0 X0). rewrite T0 in X1. qlra.
    - pose proof (WM _ _ _ _ E0 Q). qlra. }
  destruct (qlt x (mc_mir k)) eqn:QX.
  - apply qlt_spec in QX.
    assert (BX : (x <= t + d)%Qc). { destruct (qlt t (mc_mir k)) eqn:Z; [apply BEST; now apply qlt_spec|]. apply qlt_false in Z. qlra. }
    destruct (in_dec cell_eq_dec (f, b) (ms_cand s)) as [J|J].
    + destruct (ACC f b v J E) as [x0 [X0 [X1 X2]]]. assert (x0 = x) by congruence. subst x0. qlra.
    + destruct (T f b v E) as [x0 [d0 [X0 [X1 [X2 [X3 X4]]]]]]. assert (x0 = x) by congruence. subst x0.
      destruct (KD f b v E J) as [Q|[l [L Q]]].
      * assert (tc f v = x) by congruence. qlra.
      * rewrite X1 in L. injection L as <-. destruct Q as [Q|Q]; qlra.
  - apply qlt_false in QX. destruct (qlt t (mc_mir k)) eqn:Z.
    + apply qlt_spec in Z. specialize (BEST Z). qlra.
    + apply qlt_false in Z. qlra.
Qed.

(** ** When every row has been looked up for every feature *)
Context (IC : ic = true) (RF : mc_repl k = false).
Definition feature_busy (f : nat) : Prop := exists b, arm f b.
(** Every busy feature has received exactly the rows already drawn. *)
Definition all_rows (s : mstate) : Prop := forall f h0, feature_busy f -> nth_error hs0 f = Some h0 ->
  exists h I, nth_error (ms_hists s) f = Some h /\ h_edges h = h_edges h0 /\
    state_for ic cl f (rows_at (mc_data k) (mc_labels k) I) h /\
    forall P, ms_pop s = Some P -> Permutation (I ++ P) (arange N).
Definition full_price (s : mstate) : Prop := ms_q s + busy * left_in (ms_pop s) = busy * N.

Lemma all_busy acc : by_feature acc -> (forall f b, In (f, b) acc -> arm f b) -> length (f2bin acc) = busy ->
  forall f, feature_busy f -> In f (map fst acc).
Proof.
  intros BF AR L f [b A]. destruct (f2bin_spec acc BF) as [FL [NDK NE]].
  apply (f2bin_keys acc f BF).
  set (bl := filter (fun f => match nth_error hs0 f with Some h => 0 <? h_nb h | None => false end) (seq 0 F)).
  assert (INC : incl (map fst (f2bin acc)) bl).
  { intros g I. apply (f2bin_keys acc g BF) in I. apply in_map_iff in I. destruct I as [[g' b'] [<- I]]. pose proof (AR _ _ I) as A'.
    destruct (arm_range _ _ _ _ SC _ _ A'). destruct A' as [h [E Z]]. apply filter_In. split; [apply in_seq; cbn [fst]; lia|]. cbn [fst]. rewrite E. apply Nat.ltb_lt. lia. }
  assert (INC' : incl bl (map fst (f2bin acc))).
  { apply NoDup_length_incl; auto. rewrite map_length, L. unfold MabFacts.busy. fold bl. lia. }
  apply INC'. destruct (arm_range _ _ _ _ SC _ _ A). destruct A as [h [E Z]]. apply filter_In. split; [apply in_seq; lia|]. rewrite E. apply Nat.ltb_lt. lia.
Qed.

Lemma class_imp_perm l l' : Permutation l l' -> class_imp M (mc_measure k) l = class_imp M (mc_measure k) l'.
Proof. intros P. unfold class_imp. destruct (mc_measure k); auto using gini_perm, entropy_perm. Qed.

Lemma sample_rows s s' brk : minv s -> ms_pop s <> Some [] -> sample_block M k s = Ok (s', brk) -> all_rows s ->
  length (f2bin (ms_cand s)) = busy ->
  all_rows s' /\ (ms_pop s' = Some [] -> forall f b v, In (f, b) (ms_cand s) -> edge_at hs0 f b v -> ms_est s' f b = Fin (tc f v)).
Proof.
  intros I NP H AL LB. destruct (sample_inv _ _ _ _ _ H) as [r [ER [L1 [_ [_ [E1 [_ [_ [_ [EH [EP _]]]]]]]]]]].
  assert (AR : forall f b, In (f, b) (ms_cand s) -> arm f b) by (intros; now apply (mi_cand _ _ _ _ _ _ I)).
  pose proof (mi_sorted _ _ _ _ _ _ I) as BF.
  destruct (sample_targets_spec _ _ _ _ _ _ _ _ _ _ ER BF (sc_labels _ _ _ _ SC))
    as [idcs [ps [X [Y [ED [VI [EX [EY [EC [EQ [EL [EO [EI [irs [vs [EIR [ECB [L2 [L3 SCO]]]]]]]]]]]]]]]]]]].
  pose proof (mi_pop _ _ _ _ _ _ I) as PO. destruct (ms_pop s) as [P|] eqn:EPO; [|cbn in PO; congruence].
  destruct (draw_rows_some _ _ _ _ _ _ _ _ ED) as [_ [rest [ER2 [PP LI]]]].
  assert (NEW : forall f h0, feature_busy f -> nth_error hs0 f = Some h0 -> exists h' J, nth_error (sr_hists r) f = Some h' /\ h_edges h' = h_edges h0 /\
     state_for ic cl f (rows_at (mc_data k) (mc_labels k) J) h' /\ Permutation (J ++ rest) (arange N)).
  { intros f h0 FB E0. destruct (AL f h0 FB E0) as [h [J [J1 [J2 [J3 J4]]]]]. specialize (J4 P EPO).
    destruct (EI f (all_busy _ BF AR LB f FB)) as [h1 [h2 [K1 [K2 K3]]]]. rewrite J1 in K1. injection K1 as <-.
    destruct (hist_add_state _ _ _ _ _ _ _ _ J3 K2) as [_ [S1 [S2 [S3 _]]]].
    exists h2, (J ++ idcs). split; auto. split; [congruence|]. split.
    - unfold rows_at in *. rewrite map_app, <- EC. exact S1.
    - rewrite <- app_assoc. etransitivity; [|exact J4]. apply Permutation_app_head. now symmetry. }
  split.
  - intros f h0 FB E0. destruct (NEW f h0 FB E0) as [h' [J [J1 [J2 [J3 J4]]]]]. exists h', J. rewrite EH, EP, ER2. split; auto. split; auto. split; auto.
    intros P' Q. injection Q as <-. exact J4.
  - intros PE f b v J EA. rewrite EP, ER2 in PE. injection PE as ->.
    destruct (upds_in (ms_cand s) (sr_ir r) (ms_est s) f b (mi_nodup _ _ _ _ _ _ I) L1 J) as [i [G1 G2]]. rewrite <- E1 in G2.
    destruct (SCO i f b G1) as [ir [vv [Q1 [Q2 [h' [bs [rv [j [Q3 [Q4 [Q5 [Q6 Q7]]]]]]]]]]]].
    rewrite EIR, nth_error_map, Q1 in G2. cbn in G2. injection G2 as <-. f_equal.
    assert (FB : feature_busy f) by (exists b; auto).
    destruct EA as [h0 [e0 [Z1 [Z2 Z3]]]]. destruct (NEW f h0 FB Z1) as [h2 [J' [K1 [K2 [K3 K4]]]]]. rewrite Q3 in K1. injection K1 as <-.
    rewrite IC in K3. destruct (state_scores _ _ _ _ _ _ _ _ _ _ _ _ K3 Q4 Q5 Q6) as [e [edges [W1 [W2 ->]]]].
    assert (e = v) by (rewrite K2, Z2 in W1; congruence). subst e. unfold true_change. rewrite IC.
    rewrite <- (rows_all k hs0 ic cl SC). apply reduction_perm; [apply class_imp_perm|].
    rewrite app_nil_r in K4. unfold rows_at. now apply Permutation_map.
Qed.

Lemma price_step s s' brk : minv s -> ms_pop s <> Some [] -> ms_cand s <> [] -> initial hs0 s \/ started s -> sample_block M k s = Ok (s', brk) -> full_price s' ->
  full_price s /\ length (f2bin (ms_cand s)) = busy.
Proof.
  intros I NP NC IST H FP. destruct (sample_inv _ _ _ _ _ H) as [r [ER [_ [_ [_ [_ [_ [_ [_ [_ [EP [EQ _]]]]]]]]]]]].
  assert (AR : forall f b, In (f, b) (ms_cand s) -> arm f b) by (intros; now apply (mi_cand _ _ _ _ _ _ I)).
  destruct (round_ok M k hs0 ic cl SC _ _ _ _ _ _ (mi_hists _ _ _ _ _ _ I) (mi_pop _ _ _ _ _ _ I) (mi_sorted _ _ _ _ _ _ I) AR (sc_batch _ _ _ _ SC) NP ER)
    as [_ [_ [R3 [R4 _]]]]. rewrite RF in R4.
  pose proof (f2bin_busy k hs0 ic cl SC _ (mi_sorted _ _ _ _ _ _ I) AR) as LB.
  pose proof (mi_q _ _ _ _ _ _ I RF) as MQ. unfold full_price in *. rewrite EQ, EP, R3 in FP. rewrite <- R4 in *.
  assert (DP : 0 < drawn k (ms_pop s) (mc_batch k)).
  { pose proof (mi_pop _ _ _ _ _ _ I) as PO. unfold drawn. pose proof (sc_batch _ _ _ _ SC). destruct (ms_pop s) as [[|p P]|]; [congruence| |cbn in PO; congruence].
    change (length (p :: P)) with (S (length P)). lia. }
  set (dr := drawn k (ms_pop s) (mc_batch k)) in *. set (fb := length (f2bin (ms_cand s))) in *. set (lf := left_in (sr_pop r)) in *. set (bz := busy) in *.
  rewrite Nat.mul_add_distr_l in *. assert (fb * dr <= bz * dr) by now apply Nat.mul_le_mono_r.
  assert (fb * dr = bz * dr) by lia. split; [lia|]. apply Nat.mul_cancel_r in H1; lia.
Qed.

(** All estimates that matter are exact. *)
Definition right_estimates (s : mstate) : Prop :=
  (forall f b v x, edge_at hs0 f b v -> ms_est s f b = Fin x -> x = tc f v \/ (t < x)%Qc \/ (mc_mir k <= x)%Qc) /\
  ((t < mc_mir k)%Qc -> exists f b v, edge_at hs0 f b v /\ tc f v = t /\ ms_est s f b = Fin t).

Lemma sample_right s s' brk : minv s -> minv s' -> ms_pop s <> Some [] -> sample_block M k s = Ok (s', brk) ->
  initial hs0 s \/ tight s -> known s -> truth s' -> all_rows s -> length (f2bin (ms_cand s)) = busy -> ms_pop s' = Some [] ->
  right_estimates s'.
Proof.
  intros I I' NP H IS KN TR AL LB PE.
  destruct (sample_rows s s' brk I NP H AL LB) as [_ EX]. specialize (EX PE).
  destruct (sample_trust s s' brk I I' NP H IS KN TR) as [T' _].
  destruct (sampled_values s s' brk I NP H) as [_ OTH]; [destruct IS; [left|right; apply tight_centred]; auto|].
  destruct KN as [KO [KB KD]]. split.
  - intros f b v x E X. destruct (in_dec cell_eq_dec (f, b) (ms_cand s)) as [J|J].
    + left. rewrite (EX f b v J E) in X. congruence.
    + destruct (OTH f b J) as [O1 [O2 O3]]. destruct (KD f b v E J) as [Q|[l [L Q]]]; [left; congruence|].
      destruct (T' f b v E) as [x0 [d0 [X0 [X1 [X2 [X3 X4]]]]]]. assert (x0 = x) by congruence. subst x0.
      rewrite O2, L in X1. injection X1 as ->. destruct Q as [Q|Q]; [|right; right; qlra].
      destruct (q_total t x) as [G|[G|G]]; auto.
      * left. apply qle_antisym; qlra.
      * exfalso. qlra.
  - intros TM. destruct (KB TM) as [f [b [v [E1 [E2 E3]]]]]. exists f, b, v. split; auto. split; auto.
    destruct (in_dec cell_eq_dec (f, b) (ms_cand s)) as [J|J]; [rewrite (EX f b v J E1); congruence|].
    destruct E3 as [E3|E3]; [contradiction|]. now rewrite (proj1 (OTH f b J)).
Qed.

Lemma loop_right fuel : forall s s', minv s -> initial hs0 s \/ started s -> in_budget k s -> ms_pop s <> Some [] \/ tight s ->
  initial hs0 s \/ tight s -> known s -> (forall s1, visited M k s s1 -> truth s1) ->
  (full_price s -> all_rows s) -> (full_price s -> ms_pop s = Some [] -> right_estimates s) ->
  mab_loop M k fuel s = Ok s' -> full_price s' -> ms_pop s' = Some [] -> right_estimates s'.
Proof.
  induction fuel as [|fuel IH]; intros s s' I IST IB PT IS KN VT AL RE H FP PE; cbn [mab_loop] in H; destruct (5 <? length (ms_cand s)) eqn:L5; try discriminate.
  - injection H as <-. auto.
  - apply Nat.ltb_lt in L5. apply rbind_ok in H. destruct H as [[s1 brk] [E H]].
    assert (T1s : truth s1) by (apply VT; eapply visited_first; eauto).
    destruct (body_trust s s1 brk I IST IB L5 PT E IS KN T1s) as [T1 K1].
    destruct (body_ok M k hs0 ic cl SC s s1 brk I IST IB L5 E) as [I1 [_ [_ Q]]].
    assert (Z : s1 = s /\ brk = true \/ ms_pop s <> Some [] /\ sample_block M k s = Ok (s1, brk)).
    { unfold mab_body in E. rewrite RF in E. cbn [rbind] in E.
      assert (L1 : (length (ms_cand s) <=? 1) = false) by (apply Nat.leb_gt; lia). rewrite L1 in E.
      destruct (ms_pop s) as [[|p P]|]; [left; injection E as <- <-; auto|right; split; [discriminate|exact E]..]. }
    destruct Z as [[-> ->]|[NP SB]]; [injection H as <-; auto|].
    assert (NC : ms_cand s <> []) by (intros Z; rewrite Z in L5; cbn in L5; lia).
    assert (AL1 : full_price s1 -> all_rows s1).
    { intros FP1. destruct (price_step s s1 brk I NP NC IST SB FP1) as [FP0 LB]. apply (sample_rows s s1 brk I NP SB (AL FP0) LB). }
    assert (RE1 : full_price s1 -> ms_pop s1 = Some [] -> right_estimates s1).
    { intros FP1 PE1. destruct (price_step s s1 brk I NP NC IST SB FP1) as [FP0 LB]. apply (sample_right s s1 brk); auto. }
    destruct brk; [injection H as <-; auto|]. destruct (Q eq_refl) as [Q1 [Q2 _]].
    apply (IH s1 s'); auto. intros s2 V. apply VT. eapply visited_later; eauto.
  - injection H as <-. auto.
Qed.

Lemma right_wins s f b v x : right_estimates s -> edge_at hs0 f b v -> winner s f b x ->
  if qlt x (mc_mir k) then x = tc f v /\ x = t else (mc_mir k <= t)%Qc.
Proof.
  intros [R1 R2] E [WX WM]. destruct (qlt x (mc_mir k)) eqn:QX.
  - apply qlt_spec in QX. pose proof (TL f b v E) as T0. destruct (qlt t (mc_mir k)) eqn:Z.
    + apply qlt_spec in Z. destruct (R2 Z) as [f0 [b0 [v0 [E0 [_ X0]]]]]. pose proof (WM _ _ _ _ E0 X0) as W0.
      destruct (R1 f b v x E WX) as [G|[G|G]]; [|exfalso; qlra..]. split; auto. apply qle_antisym; qlra.
    + apply qlt_false in Z. exfalso. destruct (R1 f b v x E WX) as [G|[G|G]]; qlra.
  - apply qlt_false in QX. destruct (qlt t (mc_mir k)) eqn:Z; [|now apply qlt_false].
    apply qlt_spec in Z. destruct (R2 Z) as [f0 [b0 [v0 [E0 [_ X0]]]]]. pose proof (WM _ _ _ _ E0 X0). exfalso. qlra.
Qed.
End Trust.

(** ** Runs of the solver *)
Lemma least_exists (l : list Qc) : l <> [] -> exists a, In a l /\ forall x, In x l -> (a <= x)%Qc.
Proof.
  induction l as [|a l IH]; [contradiction|]. intros _. destruct l as [|b l].
  - exists a. split; [now left|]. intros x [<-|[]]. apply qle_refl.
  - destruct IH as [m [I L]]; [discriminate|]. destruct (qlt m a) eqn:E.
    + apply qlt_spec in E. exists m. split; [now right|]. intros x [<-|J]; auto. qlra.
    + apply qlt_false in E. exists a. split; [now left|]. intros x [<-|J]; [apply qle_refl|]. specialize (L x J). qlra.
Qed.

Section Run.
Context (M : math) (c : scfg) (repl : bool) (budget : option Z) (batch : nat)
  (data : list (list Qc)) (labels : list Qc) (mir : Qc) (W : nat) (e0 : env) (mh : mhstate) (out : sres) (e1 : env).
Context (SV : solvable c data labels W) (HB : 1 <= batch).
Notation k := (mab_cfg c 0 repl budget batch data labels mir W).
Notation hs := (mh_hists mh).
Notation E := (edges_of (mh_hists mh)).
Notation red := (reduction (impurity M c) (combine data labels)).
Notation s0 := (mab_init c repl data W (e_mem e0 (e_calls e0)) mh (e_gen e0)).
Notation ic := (s_class c). Notation cl := (if s_class c then unique labels else []).
Context (EM : make_histograms (s_class c) data labels (s_minmax c) (s_dd c) (s_bin c) (s_nb c) (e_np e0) = Ok mh).
Context (L5 : 5 < arm_count W E).
Context (VT : forall s, visited M k s0 s -> intervals_hold red W E s).
Context (RUN : solve_mab M c 0 repl budget batch data labels mir e0 = Ok (out, e1)).

Lemma tc_red f v : true_change M k ic f v = red f v.
Proof. unfold true_change. cbn [mc_data mc_labels mc_measure mab_cfg]. unfold impurity, class_imp. destruct (s_class c); auto. Qed.

Lemma run_facts : exists t s f b v x,
  static k hs ic cl /\
  (exists f b v, edge_at hs f b v /\ true_change M k ic f v = t) /\
  (forall f b v, edge_at hs f b v -> (t <= true_change M k ic f v)%Qc) /\
  mab_loop M k (mab_fuel W (s_nb c) (length data)) s0 = Ok s /\
  minv M k hs ic cl s0 /\ initial hs s0 /\ in_budget k s0 /\ ms_pop s0 <> Some [] /\
  known M k hs ic t s0 /\ (forall s1, visited M k s0 s1 -> truth M k hs ic s1) /\ 5 < length (ms_cand s0) /\
  minv M k hs ic cl s /\
  f < W /\ edge_at hs f b v /\ winner hs s f b x /\ busy k hs = length (busy_features W E) /\
  out = (if qlt x mir then Found f v (Fin x) (ms_q s) else NoSplit (ms_q s)).
Proof.
  destruct (mab_run _ _ _ _ _ _ _ _ _ _ _ _ _ SV RUN) as [NI _].
  destruct (mab_finished _ _ _ _ _ _ _ _ _ _ _ _ _ SV HB RUN) as [E' [mh' [s [f [b [v [HC [HE [EM' [EL [ST [FI [SS [Hf [Hb [EV [BEST EO]]]]]]]]]]]]]]]]].
  cbn beta zeta in *. rewrite EM in EM'. injection EM' as <-.
  assert (AC : 5 < arm_count W E') by (rewrite (arm_count_ext _ _ _ HE); exact L5).
  destruct (BEST (SS AC)) as [EV' [x [X1 [_ MIN]]]].
  pose proof (mab_start M c 0 repl budget batch data labels mir W mh _ (e_mem e0 (e_calls e0)) (e_gen e0) SV NI HB EM L5) as STA.
  pose proof (mab_in_budget c 0 repl budget batch data labels mir W HB mh (e_mem e0 (e_calls e0)) (e_gen e0)) as IB0.
  assert (EA : edge_at hs f b v) by (apply edge_at_edges; rewrite <- HE; exact EV').
  set (vals := concat (map (fun f => map (true_change M k ic f) (E f)) (seq 0 W))).
  assert (VIN : forall f b v, edge_at hs f b v -> In (true_change M k ic f v) vals).
  { intros f' b' v' Q. unfold vals. apply in_concat. exists (map (true_change M k ic f') (E f')).
    assert (A : is_arm hs f' b') by (apply (arm_edge_at _ _ _ _ ST); eauto). destruct (arm_range _ _ _ _ ST _ _ A) as [Hf' _].
    split; [apply in_map_iff; exists f'; split; auto; apply in_seq; cbn in Hf'; lia|].
    apply in_map. apply edge_at_edges in Q. eapply nth_error_In; eauto. }
  destruct (least_exists vals) as [t [T1 T2]]. { intros Z. pose proof (VIN f b v EA) as Q. rewrite Z in Q. destruct Q. }
  assert (PN : ms_pop s0 <> Some []).
  { cbn. destruct repl; [discriminate|]. intros Z. injection Z as Z. apply (f_equal (@length _)) in Z. rewrite arange_length in Z.
    pose proof (sc_pos _ _ _ _ ST) as P. cbn in *. lia. }
  assert (ALLC : forall f b v, edge_at hs f b v -> In (f, b) (ms_cand s0)).
  { intros f' b' v' Q. apply (so_init _ _ _ _ _ _ STA). apply (arm_edge_at _ _ _ _ ST); eauto. }
  assert (TT : exists f b v, edge_at hs f b v /\ true_change M k ic f v = t).
  { unfold vals in T1. apply in_concat in T1. destruct T1 as [l [I1 I2]]. apply in_map_iff in I1. destruct I1 as [f' [<- I1]].
    apply in_map_iff in I2. destruct I2 as [v' [Q I2]]. apply In_nth_error in I2. destruct I2 as [b' I2]. exists f', b', v'. split; auto. now apply edge_at_edges. }
  exists t, s, f, b, v, x. split; auto. split; auto. split; [intros; eapply T2, VIN; eauto|]. split; auto. split; [apply STA|]. split; [apply STA|]. split; auto. split; auto. split.
  { split; [|split].
    - intros f' b' Hf' Hb' NA. cbn [ms_ucb mab_init]. apply upd_const_in. apply (mab_notin c batch data labels W SV NI HB mh _ EM); auto.
    - intros _. destruct TT as [f' [b' [v' [Q1 Q2]]]]. exists f', b', v'. eauto.
    - intros f' b' v' Q NQ. exfalso. eauto. }
  split.
  { intros s1 V f' b' v' Q. assert (A : is_arm hs f' b') by (apply (arm_edge_at _ _ _ _ ST); eauto). destruct (arm_range _ _ _ _ ST _ _ A) as [Hf' _].
    rewrite tc_red. apply (VT s1 V f' b' v'); [exact Hf'|now apply edge_at_edges]. }
  split; [apply STA|]. split; [apply FI|]. split; auto. split; auto. split.
  { split; auto. intros f' b' v' x' Q X'. apply xle_fin. rewrite <- X1, <- X'.
    assert (A : is_arm hs f' b') by (apply (arm_edge_at _ _ _ _ ST); eauto). destruct (arm_range _ _ _ _ ST _ _ A) as [Hf' _].
    apply (MIN f' b' v'); [exact Hf'|rewrite HE; now apply edge_at_edges]. }
  split; [apply (mab_busy c 0 repl budget batch data labels mir W SV NI HB mh _ EM)|].
  rewrite EO, X1. reflexivity.
Qed.

Lemma edges_range f v : f < W -> In v (E f) -> exists b, edge_at hs f b v.
Proof. intros _ I. apply In_nth_error in I. destruct I as [b I]. exists b. now apply edge_at_edges. Qed.

Lemma run_near d s : (0 <= d)%Qc -> mab_loop M k (mab_fuel W (s_nb c) (length data)) s0 = Ok s -> estimates_within d red E s ->
  near_best d red mir W E out.
Proof.
  intros D0 EL ACC.
  destruct run_facts as [t [s' [f [b [v [x [ST [TA [TL [EL' [I0 [IN0 [IB0 [PN [KN [TR [LC [FI [Hf [EA [WIN [_ EO]]]]]]]]]]]]]]]]]]]]]].
  rewrite EL in EL'. injection EL' as <-.
  destruct (loop_trust M k hs ic cl ST eq_refl t TA TL _ _ _ I0 (or_introl IN0) IB0 (or_introl PN) (or_introl IN0) KN TR EL) as [KN' TI'].
  specialize (TI' (or_introl LC)).
  pose proof (near M k hs ic eq_refl t d s f b v x TI' KN' D0 EA WIN) as NB. cbn [mc_mir mab_cfg] in NB.
  assert (ACC' : forall f b v, In (f, b) (ms_cand s) -> edge_at hs f b v ->
     exists x, ms_est s f b = Fin x /\ (true_change M k ic f v - d <= x)%Qc /\ (x <= true_change M k ic f v + d)%Qc).
  { intros f' b' v' J Q. rewrite tc_red. apply (ACC f' b' v' J). now apply edge_at_edges. }
  specialize (NB ACC'). rewrite EO. destruct (qlt x mir); cbn.
  - split; auto. split; [apply edge_at_edges in EA; eapply nth_error_In; eauto|]. intros f' v' Hf' I. destruct (edges_range f' v' Hf' I) as [b' Q].
    pose proof (TL f' b' v' Q) as T0. rewrite tc_red in *. qlra.
  - intros f' v' Hf' I. destruct (edges_range f' v' Hf' I) as [b' Q]. pose proof (TL f' b' v' Q) as T0. rewrite tc_red in *. qlra.
Qed.

Lemma run_near_width d s : (0 <= d)%Qc -> mab_loop M k (mab_fuel W (s_nb c) (length data)) s0 = Ok s -> intervals_within d E s ->
  near_best d red mir W E out.
Proof.
  intros D0 EL ACC. apply (run_near d s D0 EL).
  destruct run_facts as [t [s' [f [b [v [x [ST [TA [TL [EL' [I0 [IN0 [IB0 [PN [KN [TR [LC _]]]]]]]]]]]]]]]]].
  destruct (loop_trust M k hs ic cl ST eq_refl t TA TL _ _ _ I0 (or_introl IN0) IB0 (or_introl PN) (or_introl IN0) KN TR EL) as [_ TI'].
  specialize (TI' (or_introl LC)). intros f' b' v' J N. assert (Q : edge_at hs f' b' v') by now apply edge_at_edges.
  destruct (TI' f' b' v' Q) as [x' [d' [X0 [X1 [X2 [X3 X4]]]]]]. destruct (ACC f' b' v' J N) as [l [u [Y1 [Y2 Y3]]]].
  rewrite X1 in Y1. injection Y1 as <-. rewrite X2 in Y2. injection Y2 as <-. rewrite tc_red in *. exists x'. split; auto. split; qlra.
Qed.

Lemma run_right : s_class c = true -> repl = false -> sres_q out = length data * length (busy_features W E) ->
  best_answer red mir W E out.
Proof.
  intros IC RF SQ.
  destruct run_facts as [t [s [f [b [v [x [ST [TA [TL [EL [I0 [IN0 [IB0 [PN [KN [TR [LC [FI [Hf [EA [WIN [BZ EO]]]]]]]]]]]]]]]]]]]]]].
  assert (Q : ms_q s = busy k hs * length data).
  { rewrite BZ, Nat.mul_comm, <- SQ, EO. destruct (qlt x mir); reflexivity. }
  assert (RK : mc_repl k = false) by exact RF.
  pose proof (mi_q _ _ _ _ _ _ FI RK) as MQ. cbn [mc_N mab_cfg] in MQ.
  assert (BP : 0 < busy k hs).
  { unfold busy. assert (A : is_arm hs f b) by (apply (arm_edge_at _ _ _ _ ST); eauto). destruct A as [h [Eh Hh]].
    assert (In f (filter (fun f => match nth_error hs f with Some h => 0 <? h_nb h | None => false end) (seq 0 (mc_F k)))).
    { apply filter_In. split; [apply in_seq; cbn; lia|]. rewrite Eh. apply Nat.ltb_lt. lia. }
    destruct (filter _ _); [destruct H|cbn; lia]. }
  assert (LF : left_in (ms_pop s) = 0) by nia.
  assert (PE : ms_pop s = Some []).
  { pose proof (mi_pop _ _ _ _ _ _ FI) as P. unfold pop_ok in P. destruct (ms_pop s) as [P0|]; [|congruence]. destruct P0; [auto|discriminate]. }
  assert (FP : full_price k hs s). { unfold full_price. rewrite LF, Q. cbn [mc_N mab_cfg]. lia. }
  assert (RE : right_estimates M k hs ic t s).
  { refine (loop_right M k hs ic cl ST eq_refl t TA TL IC RK _ _ _ I0 (or_introl IN0) IB0 (or_introl PN) (or_introl IN0) KN TR _ _ EL FP PE).
    - intros _ f' h0 _ E0. exists h0, []. cbn [ms_hists mab_init ms_pop]. split; auto. split; auto. split.
      + apply hist_for_state; [apply (sc_hist _ _ _ _ ST f' h0 E0)|apply (cl_nodup _ _ _ _ ST)].
      + rewrite RF. intros P Z. injection Z as <-. cbn. apply Permutation_refl.
    - intros _ Z. contradiction. }
  pose proof (right_wins M k hs ic eq_refl t TL s f b v x RE EA WIN) as RW. cbn [mc_mir mab_cfg] in RW. rewrite EO. destruct (qlt x mir) eqn:QX; cbn.
  - destruct RW as [-> RW]. apply qlt_spec in QX. rewrite tc_red in *. split; auto. split; [apply edge_at_edges in EA; eapply nth_error_In; eauto|]. split; auto. split; auto.
    intros f' v' Hf' I. destruct (edges_range f' v' Hf' I) as [b' Q']. pose proof (TL f' b' v' Q') as T0. rewrite tc_red in T0. qlra.
  - intros f' v' Hf' I. destruct (edges_range f' v' Hf' I) as [b' Q']. pose proof (TL f' b' v' Q') as T0. rewrite tc_red in T0. qlra.
Qed.
End Run.

Lemma honest_candidates M c repl budget batch data labels mir W e0 mh o :
  honest_search M c repl budget batch data labels mir W e0 mh ->
  solve_mab M c 0 repl budget batch data labels mir e0 = Ok o ->
  forall f, f < W -> candidates (s_bin c) (nbins c data) (s_minmax c) data f (thresholds mh f).
Proof.
  intros [H1 H2 H3 H4 H5] RUN. destruct o as [out e1]. pose proof (mab_run _ _ _ _ _ _ _ _ _ _ _ _ _ H1 RUN) as [NI _].
  pose proof H3 as EM'. rewrite <- (mab_bins c data NI) in EM'.
  destruct (sv_candidates _ _ _ _ H1 mh _ EM') as [_ HC]. intros f Hf. exact (proj1 (HC f Hf)).
Qed.
Lemma honest_near M c repl budget batch data labels mir W e0 mh s d out e1 :
  honest_search M c repl budget batch data labels mir W e0 mh ->
  search_ends M c repl budget batch data labels mir W e0 mh s -> (0 <= d)%Qc ->
  estimates_within d (change M c data labels) (thresholds mh) s \/ intervals_within d (thresholds mh) s ->
  solve_mab M c 0 repl budget batch data labels mir e0 = Ok (out, e1) ->
  (forall f, f < W -> candidates (s_bin c) (nbins c data) (s_minmax c) data f (thresholds mh f)) /\
  near_best d (change M c data labels) mir W (thresholds mh) out.
Proof.
  intros HS HE D0 HW RUN. split; [eapply honest_candidates; eauto|]. destruct HS as [H1 H2 H3 H4 H5]. destruct HW as [HW|HW].
  - eapply run_near; eauto.
  - eapply run_near_width; eauto.
Qed.
Lemma honest_full M c budget batch data labels mir W e0 mh out e1 :
  honest_search M c false budget batch data labels mir W e0 mh -> s_class c = true ->
  solve_mab M c 0 false budget batch data labels mir e0 = Ok (out, e1) ->
  sres_q out = length data * length (busy_features W (thresholds mh)) ->
  (forall f, f < W -> candidates (s_bin c) (nbins c data) (s_minmax c) data f (thresholds mh f)) /\
  best_answer (change M c data labels) mir W (thresholds mh) out.
Proof. intros HS IC RUN SQ. split; [eapply honest_candidates; eauto|]. destruct HS as [H1 H2 H3 H4 H5]. eapply run_right; eauto. Qed.

(** What one batch of the bandit search decides. *)
From Coq Require Import List Arith Bool ZArith QArith Qcanon Lia Permutation.
From Verif Require Import Base Num Rng Histogram Utils Criteria Solvers Spec SolverSpec.
From Verif Require Import NumFacts ListFacts HistFacts HistAdd CritFacts ReductionFacts MakeHist SampleFacts HistProps HistProps2 ExactFacts ExactTotal ExactProps DrawFacts MabFacts MabLoop MabProps MabMore MabSim MabThms.
Import ListNotations.
Local Open Scope nat_scope.

(** ** The rows drawn first *)
Definition first_draw (N batch : nat) (repl : bool) (g : tape) : list nat :=
  match draw_rows N batch (if repl then None else Some (arange N)) g with Ok (idcs, _, _, _) => idcs | Err _ => [] end.
Lemma draw_rows_total N batch (repl : bool) g : 1 <= N -> exists d, draw_rows N batch (if repl then None else Some (arange N)) g = Ok d.
Proof.
  intros PN. unfold draw_rows. destruct repl.
  - destruct (N <=? batch); [eauto|]. unfold choice_repl. rewrite arange_length. assert (Q : (N =? 0) = false) by (apply Nat.eqb_neq; lia). rewrite Q. cbn [andb]. destruct (draws_mod N batch g). cbn. eauto.
  - rewrite arange_length. destruct (N <=? batch) eqn:LP; cbn [rbind fst snd].
    + destruct (take_idx_total (arange N) (arange N)) as [l E]; [intros i I; rewrite arange_length; now apply arange_in|]. rewrite E. cbn. eauto.
    + unfold choice_norepl. rewrite arange_length. apply Nat.leb_gt in LP. assert (Q : (N <? batch) = false) by (apply Nat.ltb_ge; lia). rewrite Q. cbn [rbind].
      destruct (pick_k_spec batch (arange N) g) as [rest [PP _]]; [rewrite arange_length; lia|].
      destruct (take_idx_total (arange N) (fst (pick_k batch (arange N) g))) as [l E].
      { intros i I. rewrite arange_length. apply arange_in. eapply Permutation_in; [apply Permutation_sym; exact PP|]. apply in_or_app. auto. }
      rewrite E. cbn. eauto.
Qed.
Lemma first_draw_spec N batch repl g : 1 <= N -> 1 <= batch -> let I := first_draw N batch repl g in
  length I = Nat.min batch N /\ (forall i, In i I -> i < N) /\ (repl = false -> NoDup I) /\ (N <= batch -> I = seq 0 N).
Proof.
  intros PN PB I. unfold I, first_draw. destruct (draw_rows_total N batch repl g PN) as [[[[idcs ps] pop'] t'] ED]. rewrite ED. destruct repl.
  - destruct (draw_rows_none _ _ _ _ _ _ _ ED) as [_ [VI [LI [AL _]]]]. split; [lia|]. split; auto. split; [discriminate|]. intros LE. now apply AL.
  - destruct (draw_rows_some _ _ _ _ _ _ _ _ ED) as [_ [rest [_ [PP LI]]]]. rewrite arange_length in LI. split; [lia|].
    split; [intros i J; apply arange_in; eapply Permutation_in; [apply Permutation_sym; exact PP|]; apply in_or_app; auto|].
    split; [intros _; apply (nodup_app_l idcs rest); eapply Permutation_NoDup; [exact PP|]; apply arange_nodup|].
    intros LE. destruct (draw_rows_all N batch g LE) as (rest' & E & _). rewrite E in ED. now injection ED as <- _ _ _.
Qed.

(** ** The first batch fixes every estimate *)
Section First.
Context (M : math) (k : mcfg) (hs0 : list hist) (cl : list Qc) (SC : static k hs0 true cl).
Notation F := (mc_F k). Notation B := (mc_B k). Notation N := (mc_N k).

Lemma first_sample acc pop t r : by_feature acc -> (forall f b, In (f, b) acc -> is_arm hs0 f b) -> pop = (if mc_repl k then None else Some (arange N)) ->
  sample_targets M (mc_measure k) (mc_data k) (mc_labels k) acc hs0 (mc_batch k) pop t = Ok r ->
  let I := first_draw N (mc_batch k) (mc_repl k) t in
  length (sr_ir r) = length acc /\
  forall i f b v, nth_error acc i = Some (f, b) -> edge_at hs0 f b v -> nth_error (sr_ir r) i = Some (Fin (reduction (class_imp M (mc_measure k)) (rows_at (mc_data k) (mc_labels k) I) f v)).
Proof.
  intros BF AR EP H I. pose proof (sc_N _ _ _ _ SC) as EN.
  destruct (sample_targets_spec _ _ _ _ _ _ _ _ _ _ H BF (sc_labels _ _ _ _ SC))
    as [idcs [ps [X [Y [ED [VI [EX [EY [EC [EQ [EL [EO [EI [irs [vs [EIR [ECB [L1 [L2 SCO]]]]]]]]]]]]]]]]]]].
  assert (EI' : I = idcs) by (unfold I, first_draw; rewrite <- EP, EN, ED; reflexivity).
  split; [now rewrite EIR, map_length|]. intros i f b v Hi Hv.
  destruct (SCO i f b Hi) as [ir [vv [Q1 [Q2 [h' [bs [rv [j [Q3 [Q4 [Q5 [Q6 Q7]]]]]]]]]]]].
  rewrite EIR, nth_error_map, Q1. cbn [option_map]. f_equal. f_equal.
  assert (Iacc : In (f, b) acc) by (eapply nth_error_In; eauto).
  assert (J : In f (map fst acc)) by (apply in_map_iff; exists (f, b); auto).
  destruct (EI f J) as [h1 [h2 [K1 [K2 K3]]]]. rewrite Q3 in K3. injection K3 as <-.
  pose proof (sc_hist _ _ _ _ SC f h1 K1) as HF.
  pose proof (hist_for_state _ _ _ _ HF (cl_nodup k hs0 true cl SC)) as S0.
  destruct (hist_add_state _ _ _ _ _ _ _ _ S0 K2) as [_ [S1 [S2 [S3 _]]]].
  destruct (state_scores _ _ _ _ _ _ _ _ _ _ _ _ S1 Q4 Q5 Q6) as [e [edges [W1 [W2 ->]]]].
  cbn [app]. rewrite EI'. unfold rows_at in *. rewrite EC. f_equal. destruct Hv as [h9 [e9 [Z1 [Z2 Z3]]]]. congruence.
Qed.

Lemma one_round_values fuel s s' f b : start M k hs0 true cl s -> is_arm hs0 f b ->
  (mc_repl k = true -> mc_batch k < N) ->
  (forall r, sample_targets M (mc_measure k) (mc_data k) (mc_labels k) (ms_cand s) (ms_hists s) (mc_batch k) (ms_pop s) (ms_gen s) = Ok r ->
     exists i, nth_error (ms_cand s) i = Some (f, b) /\ nth_error (sr_cb r) i = Some NaN) ->
  mab_loop M k fuel s = Ok s' ->
  forall f' b' v', is_arm hs0 f' b' -> edge_at hs0 f' b' v' -> ms_est s' f' b' = Fin (reduction (class_imp M (mc_measure k)) (rows_at (mc_data k) (mc_labels k) (first_draw N (mc_batch k) (mc_repl k) (ms_gen s))) f' v').
Proof.
  intros ST A SM NN H. pose proof ST as [I IN HH HP Q L5]. destruct fuel as [|fuel]; cbn [mab_loop] in H; rewrite (proj2 (Nat.ltb_lt _ _) L5) in H; [discriminate|].
  apply rbind_ok in H. destruct H as [[s1 brk] [E H]]. unfold mab_body in E. apply rbind_ok in E. destruct E as [[s2 b2] [E2 E]].
  assert (Z : s2 = s /\ b2 = false).
  { destruct (mc_repl k) eqn:R; [|now injection E2 as <- <-]. destruct (exact_block_first M k hs0 true cl SC s s2 b2 ST R E2) as [[_ G]|[G _]]; auto. specialize (SM eq_refl). lia. }
  destruct Z as [-> ->].
  assert (L1 : (length (ms_cand s) <=? 1) = false) by (apply Nat.leb_gt; lia). rewrite L1 in E.
  assert (NP : ms_pop s <> Some []).
  { rewrite HP. destruct (mc_repl k); [discriminate|]. intros Z. injection Z as Z. apply (f_equal (@length _)) in Z. rewrite arange_length in Z.
    pose proof (sc_pos _ _ _ _ SC). cbn in Z. lia. }
  assert (E' : sample_block M k s = Ok (s1, brk)) by (destruct (ms_pop s) as [[|]|]; [congruence|exact E..]). clear E.
  assert (s' = s1) as ->.
  { destruct brk; [now injection H|]. destruct (nan_stops M k s s1 false f b E' (mi_nodup _ _ _ _ _ _ I) NN) as [|EC]; [discriminate|].
    destruct fuel; cbn [mab_loop] in H; rewrite EC in H; now injection H. }
  destruct (sample_block_inv _ _ _ _ _ E') as [r [ER [LI [_ [_ [EE _]]]]]].
  assert (AR : forall f b, In (f, b) (ms_cand s) -> is_arm hs0 f b) by (intros; now apply (mi_cand _ _ _ _ _ _ I)).
  rewrite HH in ER. destruct (first_sample _ _ _ _ (mi_sorted _ _ _ _ _ _ I) AR HP ER) as [L2 VAL].
  intros f' b' v' A' EA. assert (IC : In (f', b') (ms_cand s)) by (apply (initial_cand _ _ _ _ _ s I IN); auto).
  apply In_nth_error in IC. destruct IC as [i Ei]. rewrite EE. rewrite (upds_nth _ _ _ i (f', b') _ (mi_nodup _ _ _ _ _ _ I) Ei (VAL i f' b' v' Ei EA)). reflexivity.
Qed.
End First.

(** ** The answer is the best split of the first batch *)
Lemma picked_all data labels : length labels = length data -> picked data labels (seq 0 (length data)) = combine data labels.
Proof.
  intros L. unfold picked. apply list_ext. intros i. rewrite nth_error_map. destruct (le_lt_dec (length data) i).
  - rewrite (proj2 (nth_error_None (seq 0 (length data)) i)) by now rewrite seq_length. cbn [option_map]. symmetry. apply nth_error_None. rewrite combine_length. lia.
  - rewrite (nth_error_nth' (seq 0 (length data)) 0) by now rewrite seq_length. rewrite seq_nth by auto. cbn [option_map Nat.add]. symmetry. rewrite (nth_error_nth' (combine data labels) ([], 0%Qc)) by (rewrite combine_length; lia). now rewrite combine_nth.
Qed.
Lemma best_ext red mir W E E' out : (forall f, f < W -> E f = E' f) -> best_answer red mir W E out -> best_answer red mir W E' out.
Proof.
  intros X. destruct out as [f v r q|q]; cbn [best_answer].
  - intros (H1 & H2 & H3 & H4 & H5). rewrite <- X by auto. split; auto. split; auto. split; auto. split; auto. intros f' v' Hf' I. apply H5; auto. now rewrite X.
  - intros H f' v' Hf' I. apply H; auto. now rewrite X.
Qed.
Lemma mab_first_batch M c eps repl budget batch data labels mir W e0 out e1 E :
  solvable c data labels W -> 1 <= batch -> s_class c = true -> s_bin c = LINEAR ->
  (forall f lo hi r, f < W -> range_of (s_minmax c) data f lo hi -> In r data -> (nth f r 0 <= hi)%Qc) ->
  2 <= length (nodup Qc_eq_dec labels) ->
  (forall f, f < W -> candidates (s_bin c) (nbins c data) (s_minmax c) data f (E f)) -> 5 < arm_count W E ->
  solve_mab M c eps repl budget batch data labels mir e0 = Ok (out, e1) ->
  best_answer (reduction (impurity M c) (picked data labels (first_draw (length data) batch repl (e_gen e0)))) mir W E out.
Proof.
  intros S HB IC BT COV K2 HCE L5 H. pose proof (mab_run _ _ _ _ _ _ _ _ _ _ _ _ _ S H) as [NI _].
  assert (PD : 1 <= length data) by (pose proof (sv_rows _ _ _ _ S); destruct data; [contradiction|cbn; lia]).
  destruct (first_draw_spec (length data) batch repl (e_gen e0) PD HB) as (D1 & D2 & D3 & D4).
  destruct (le_lt_dec (length data) batch) as [LE|LT].
  { destruct (mab_full _ _ _ _ _ _ _ _ _ _ _ _ _ S LE H) as [E1 [C1 K1]].
    assert (U1 : forall f, f < W -> E1 f = E f) by (intros f Hf; apply (candidates_unique (s_bin c) (nbins c data) (s_minmax c) data f); auto).
    assert (Z : arm_count W E1 = arm_count W E) by (apply list_sum_ext; intros f I; apply in_seq in I; rewrite U1; auto; lia).
    destruct K1 as [K1 _]; [lia|]. rewrite (D4 LE), picked_all by apply S. exact (best_ext _ _ _ _ _ _ U1 K1). }
  destruct (mab_finished _ _ _ _ _ _ _ _ _ _ _ _ _ S HB H) as [E1 [mh [s [f [b [v [HC [HE [EM [EL [ST [FI [SS [Hf [Hb [EV [BEST EO]]]]]]]]]]]]]]]]].
  cbn beta zeta in *.
  assert (U1 : forall f, f < W -> E1 f = E f) by (intros f' Hf'; apply (candidates_unique (s_bin c) (nbins c data) (s_minmax c) data f'); auto).
  assert (CNT : arm_count W E1 = arm_count W E) by (apply list_sum_ext; intros f' I; apply in_seq in I; rewrite U1; auto; lia).
  assert (L5' : 5 < arm_count W (edges_of (mh_hists mh))) by (rewrite <- (arm_count_ext _ _ _ HE); lia).
  pose proof (mab_start M c eps repl budget batch data labels mir W mh _ (e_mem e0 (e_calls e0)) (e_gen e0) S NI HB EM L5') as STA.
  destruct (BEST (SS ltac:(lia))) as [EV' [x [X1 [_ MIN]]]]. clear BEST SS.
  set (k := mab_cfg c eps repl budget batch data labels mir W) in *.
  set (s0 := mab_init c repl data W (e_mem e0 (e_calls e0)) mh (e_gen e0)) in *.
  assert (TOP : exists f1 b1 v1, In (f1, b1) (ms_cand s0) /\ edge_at (mh_hists mh) f1 b1 v1 /\ forall r, In r data -> (nth f1 r 0 <= v1)%Qc).
  { pose proof (so_many _ _ _ _ _ _ STA) as LM. destruct (ms_cand s0) as [|[f1 b0] l] eqn:EC; [cbn in LM; lia|].
    assert (I1 : In (f1, b0) (ms_cand s0)) by (rewrite EC; now left).
    destruct (mi_cand _ _ _ _ _ _ (so_inv _ _ _ _ _ _ STA) f1 b0 I1) as [A _]. destruct (arm_range _ _ _ _ ST f1 b0 A) as [Hf1 _]. cbn [mc_F k mab_cfg] in Hf1.
    destruct (proj1 (mab_arm c eps repl budget batch data labels mir W S NI HB mh _ EM f1 b0) A) as [v0 N0].
    pose proof (HC f1 Hf1) as CF. rewrite BT, HE in CF. cbn [candidates] in CF. destruct CF as [lo [hi [RG D]]].
    destruct D as [[_ D]|[_ D]]; [rewrite D in N0; destruct b0; discriminate|].
    assert (B2 : 2 <= nbins c data). { rewrite (mab_bins c data NI). pose proof (sv_bins _ _ _ _ S) as SB. rewrite BT in SB. exact SB. }
    pose proof (last_linear_edge (nbins c data) lo hi B2) as LA. rewrite <- D in LA.
    exists f1, (nbins c data - 1), hi. split; [|split].
    - rewrite <- EC. apply (mab_cands c eps repl budget batch data labels mir W S NI HB mh _ EM (e_mem e0 (e_calls e0)) (e_gen e0)).
      apply (mab_arm c eps repl budget batch data labels mir W S NI HB mh _ EM). eauto.
    - now apply edge_at_edges.
    - intros r I. eapply COV; eauto. }
  destruct TOP as [f1 [b1 [v1 [J1 [J2 J3]]]]].
  rewrite IC in ST, STA.
  assert (NP : ms_pop s0 <> Some []).
  { cbn [s0 mab_init ms_pop]. destruct repl; [discriminate|]. intros Z. injection Z as Z. apply (f_equal (@length _)) in Z. rewrite arange_length in Z. cbn in *. lia. }
  set (red := reduction (impurity M c) (picked data labels (first_draw (length data) batch repl (e_gen e0)))).
  assert (VAL : forall f' b' v', nth_error (E1 f') b' = Some v' -> ms_est s f' b' = Fin (red f' v')).
  { intros f' b' v' N. rewrite HE in N. assert (A' : is_arm (mh_hists mh) f' b') by (apply (mab_arm c eps repl budget batch data labels mir W S NI HB mh _ EM); eauto).
    assert (A1 : is_arm (mh_hists mh) f1 b1) by (apply (mi_cand _ _ _ _ _ _ (so_inv _ _ _ _ _ _ STA) f1 b1 J1)).
    assert (NN : forall r, sample_targets M (mc_measure k) (mc_data k) (mc_labels k) (ms_cand s0) (ms_hists s0) (mc_batch k) (ms_pop s0) (ms_gen s0) = Ok r ->
      exists i, nth_error (ms_cand s0) i = Some (f1, b1) /\ nth_error (sr_cb r) i = Some NaN).
    { intros r ER. eapply top_edge_nan; eauto. { apply STA. } now rewrite unique_length_nodup. }
    pose proof (one_round_values M k (mh_hists mh) (unique labels) ST _ s0 s f1 b1 STA A1 (fun _ => LT) NN EL f' b' v' A' ltac:(now apply edge_at_edges)) as V. rewrite V.
    f_equal. unfold red. rewrite picked_rows by (auto; apply S). cbn [mc_N mc_batch mc_repl mc_data mc_labels mc_measure k mab_cfg]. unfold impurity, class_imp. now rewrite IC. }
  apply (best_ext _ _ _ E1 E _ U1). pose proof (VAL _ _ _ EV') as VX. assert (x = red f v) by congruence. subst x.
  assert (ALL : forall f' v', f' < W -> In v' (E1 f') -> (red f v <= red f' v')%Qc).
  { intros f' v' Hf' I. apply In_nth_error in I. destruct I as [b' N]. apply xle_fin.
    rewrite <- VX, <- (VAL _ _ _ N). eapply MIN; eauto. }
  rewrite EO, VX. cbn [xlt]. destruct (qlt (red f v) mir) eqn:QL.
  + cbn. split; auto. split; [eapply nth_error_In; eauto|]. split; auto. split; auto. now apply qlt_spec.
  + cbn. intros f' v' Hf' I. eapply Qcle_trans; [|now apply ALL]. apply Qcnot_lt_le. intros Z. apply qlt_spec in Z. congruence.
Qed.

(** The rows of the batch are fixed before the data are looked at. *)
Theorem one_batch_decides N batch repl g : 1 <= N -> 1 <= batch ->
  exists I, length I = Nat.min batch N /\ (forall i, In i I -> i < N) /\ (repl = false -> NoDup I) /\ (N <= batch -> I = seq 0 N) /\
    forall M c eps budget data labels mir W e0 out e1 E, length data = N -> e_gen e0 = g ->
      solvable c data labels W -> s_class c = true -> s_bin c = LINEAR ->
      (forall f lo hi r, f < W -> range_of (s_minmax c) data f lo hi -> In r data -> (nth f r 0 <= hi)%Qc) ->
      2 <= length (nodup Qc_eq_dec labels) ->
      (forall f, f < W -> candidates (s_bin c) (nbins c data) (s_minmax c) data f (E f)) -> 5 < arm_count W E ->
      solve_mab M c eps repl budget batch data labels mir e0 = Ok (out, e1) ->
      best_answer (reduction (impurity M c) (picked data labels I)) mir W E out.
Proof.
  intros PN PB. exists (first_draw N batch repl g). destruct (first_draw_spec N batch repl g PN PB) as (D1 & D2 & D3 & D4). repeat (split; [assumption|]).
  intros M c eps budget data labels mir W e0 out e1 E <- <- S IC BT COV K2 HC L5 H. eapply mab_first_batch; eauto.
Qed.

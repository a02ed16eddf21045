(** Two further facts about the bandit loop: what a batch covering all rows gives, and that
    uninitialised memory does not reach the result. *)
From Coq Require Import List Arith Bool ZArith QArith Qcanon Lia Permutation Sorted.
From Verif Require Import Base Num Rng Histogram Utils Criteria Solvers Spec SolverSpec NumFacts ListFacts HistFacts HistAdd CritFacts ReductionFacts MakeHist SampleFacts HistProps HistProps2 ExactFacts ExactTotal ExactProps DrawFacts MabFacts MabLoop MabProps.
Import ListNotations.
Local Open Scope nat_scope.

(** ** Inversion of the two blocks *)
Definition next_cand (k : mcfg) (s : mstate) (est lcb : mem2) (um : xn) (mi : nat * nat) : list (nat * nat) :=
  filter (fun c => let f := fst c in let b := snd c in
                 negb (ms_exact s f b) && xlt (lcb f b) um && xlt (lcb f b) (Fin (mc_mir k))
                 && negb (tied k est mi f b)) (cells (mc_F k) (mc_B k)).

Lemma sample_block_inv M k s s' brk : sample_block M k s = Ok (s', brk) ->
  exists r, sample_targets M (mc_measure k) (mc_data k) (mc_labels k) (ms_cand s) (ms_hists s) (mc_batch k) (ms_pop s) (ms_gen s) = Ok r /\
    length (ms_cand s) = length (sr_ir r) /\ length (ms_cand s) = length (add_const (sr_ir r) (sr_cb r)) /\
    (forall f b, In (f, b) (ms_cand s) -> f < mc_F k /\ b < mc_B k) /\
    ms_est s' = upds (ms_est s) (ms_cand s) (sr_ir r) /\
    ms_ucb s' = upds (ms_ucb s) (ms_cand s) (add_const (sr_ir r) (sr_cb r)) /\
    ms_pop s' = sr_pop r /\ ms_q s' = ms_q s + sr_q r /\
    (brk = false -> exists um mi, xmin_list (flat (mc_F k) (mc_B k) (ms_ucb s')) = Ok um /\
       ms_cand s' = next_cand k s (ms_est s') (ms_lcb s') um mi).
Proof.
  unfold sample_block. intros H. apply rbind_ok in H. destruct H as [acc [EA H]].
  assert (acc = ms_cand s) by (unfold accesses in EA; destruct (ms_cand s); [discriminate|now injection EA]). subst acc.
  apply rbind_ok in H. destruct H as [r [ER H]]. exists r. split; auto.
  apply rbind_ok in H. destruct H as [est [EE H]]. apply rbind_ok in H. destruct H as [lcb [EL H]].
  apply rbind_ok in H. destruct H as [ucb [EU H]].
  apply assign_ok in EE. destruct EE as [LA [RA ->]]. apply assign_ok in EU. destruct EU as [LU [_ ->]].
  split; auto. split; auto. split; auto.
  destruct (over_budget _ _); [injection H as <- <-; cbn; repeat (split; auto); discriminate|].
  apply rbind_ok in H. destruct H as [lm [_ H]]. destruct (xlt (Fin 0) lm); [injection H as <- <-; cbn; repeat (split; auto); discriminate|].
  apply rbind_ok in H. destruct H as [ai [_ H]]. apply rbind_ok in H. destruct H as [um [EM H]]. injection H as <- <-.
  cbn [ms_est ms_ucb ms_pop ms_q ms_cand ms_lcb]. repeat (split; auto). intros _. exists um, (ai / mc_B k, ai mod mc_B k). split; auto.
Qed.

Lemma nth_error_combine {A C} (l : list A) (l' : list C) i a b : nth_error l i = Some a -> nth_error l' i = Some b -> nth_error (combine l l') i = Some (a, b).
Proof. revert l l'. induction i; intros [|x l] [|y l'] H H'; cbn in *; try discriminate; auto. congruence. Qed.

Section Full.
Context (M : math) (k : mcfg) (hs0 : list hist) (ic : bool) (cl : list Qc) (SC : static k hs0 ic cl).
Notation F := (mc_F k). Notation B := (mc_B k). Notation N := (mc_N k).
Notation arm := (is_arm hs0). Notation busy := (busy k hs0).

Record start (s : mstate) : Prop := {
  so_inv : minv M k hs0 ic cl s;
  so_init : initial hs0 s;
  so_hists : ms_hists s = hs0;
  so_pop : ms_pop s = if mc_repl k then None else Some (arange N);
  so_q : ms_q s = 0;
  so_many : 5 < length (ms_cand s)
}.

Lemma start_fresh s : start s -> forall f h0 (acc : list (nat * nat)), nth_error hs0 f = Some h0 -> In f (map fst acc) ->
   exists h, nth_error (ms_hists s) f = Some h /\ hist_for ic cl f h /\ h_edges h = h_edges h0.
Proof. intros ST f h0 acc E _. rewrite (so_hists s ST). exists h0. split; auto. split; auto. apply (sc_hist _ _ _ _ SC f h0 E). Qed.

(** The first sampling block. *)
Lemma first_block s s' brk : start s -> sample_block M k s = Ok (s', brk) ->
  ms_q s' = busy * drawn k (ms_pop s) (mc_batch k).
Proof.
  intros ST H. destruct ST as [I IN HH HP Q L5].
  destruct (sample_block_inv _ _ _ _ _ H) as [r [ER [_ [_ [_ [_ [_ [_ [EQ _]]]]]]]]].
  assert (AR : forall f b, In (f, b) (ms_cand s) -> arm f b) by (intros; now apply (mi_cand _ _ _ _ _ _ I)).
  assert (NP : ms_pop s <> Some []).
  { rewrite HP. destruct (mc_repl k); [discriminate|]. intros Z. injection Z as Z. apply (f_equal (@length _)) in Z. rewrite arange_length in Z.
    pose proof (sc_pos _ _ _ _ SC). cbn in Z. lia. }
  destruct (round_ok M k hs0 ic cl SC _ _ _ _ _ _ (mi_hists _ _ _ _ _ _ I) (mi_pop _ _ _ _ _ _ I) (mi_sorted _ _ _ _ _ _ I) AR (sc_batch _ _ _ _ SC) NP ER) as [_ [_ [R3 _]]].
  rewrite EQ, Q, R3. cbn. f_equal. apply f2bin_all with (ic := ic) (cl := cl); auto. { apply I. }
  intros f b. apply (initial_cand _ _ _ _ _ s I IN).
Qed.

Lemma exact_block_first s s' brk : start s -> mc_repl k = true -> exact_block M k s = Ok (s', brk) ->
  (mc_batch k < N /\ s' = s /\ brk = false) \/
  (N <= mc_batch k /\ ms_q s' = busy * N /\ ms_cand s' = [] /\
   forall f b v, arm f b -> edge_at hs0 f b v -> ms_est s' f b = Fin (true_change M k ic f v)).
Proof.
  intros ST RT H. destruct ST as [I IN HH HP Q L5].
  destruct (exact_block_ok M k hs0 ic cl SC s s' brk I RT (or_introl IN) H) as [I' [_ [_ [_ [_ [NS _]]]]]].
  unfold exact_block in H. cbv zeta in H.
  set (acc := filter _ (cells F B)) in H.
  assert (AI : forall f b, In (f, b) acc <-> f < F /\ b < B /\ N <= mc_batch k /\ ms_exact s f b = false).
  { intros f b. unfold acc. rewrite filter_In, cells_in. cbn [fst snd]. rewrite andb_true_iff, negb_true_iff, Nat.leb_le, (proj2 IN). tauto. }
  destruct (length acc =? 0) eqn:EZ.
  - left. injection H as <- <-. split; auto. apply Nat.eqb_eq in EZ. assert (acc = []) by (destruct acc; [auto|discriminate]).
    destruct (le_lt_dec N (mc_batch k)) as [G|G]; auto. exfalso.
    destruct (ms_cand s) as [|[f b] l] eqn:EC; [cbn in L5; lia|].
    destruct (mi_cand _ _ _ _ _ _ I f b) as [A X]; [rewrite EC; now left|]. destruct (arm_range _ _ _ _ SC f b A).
    assert (In (f, b) acc) by (apply AI; auto). rewrite H in H2. destruct H2.
  - right. apply Nat.eqb_neq in EZ.
    assert (LE : N <= mc_batch k). { destruct acc as [|[f b] l] eqn:EA; [cbn in EZ; lia|]. apply (proj1 (AI f b)). now left. }
    split; auto. split; [|split].
    + apply rbind_ok in H. destruct H as [hs [EH H]]. apply rbind_ok in H. destruct H as [r [ER H]].
      apply rbind_ok in H. destruct H as [est [EE H]]. apply rbind_ok in H. destruct H as [lcb [EL H]].
      apply rbind_ok in H. destruct H as [ucb [EU H]]. apply rbind_ok in H. destruct H as [um [_ H]].
      apply rbind_ok in H. destruct H as [lm [_ H]]. injection H as <- <-. cbn [ms_q].
      assert (BF : by_feature acc) by apply by_feature_filter, cells_by_feature.
      destruct (sample_targets_spec _ _ _ _ _ _ _ _ _ _ ER BF (sc_labels _ _ _ _ SC)) as [idcs [ps [X [Y [ED [_ [_ [_ [_ [EQ _]]]]]]]]]].
      destruct (draw_rows_none _ _ _ _ _ _ _ ED) as [_ [_ [LI _]]]. rewrite <- (sc_N _ _ _ _ SC) in LI. rewrite Nat.min_id in LI.
      rewrite Q, EQ, LI. cbn. f_equal. apply f2bin_all with (ic := ic) (cl := cl); auto.
      intros f b. rewrite AI. split.
      * intros [Hf [Hb [_ X1]]]. now apply (mi_exact _ _ _ _ _ _ I).
      * intros A. destruct (arm_range _ _ _ _ SC f b A). split; auto. split; auto. split; auto. now apply (proj1 IN).
    + destruct (ms_cand s') as [|[f b] l] eqn:EC; auto. exfalso.
      destruct (mi_cand _ _ _ _ _ _ I' f b) as [A X]; [rewrite EC; now left|]. destruct (arm_range _ _ _ _ SC f b A).
      specialize (NS f b H0 H1 X). lia.
    + intros f b v A E. apply (mi_true _ _ _ _ _ _ I'); auto.
      destruct (arm_range _ _ _ _ SC f b A). destruct (ms_exact s' f b) eqn:X; auto. specialize (NS f b H0 H1 X). lia.
Qed.

Lemma full_loop fuel s s' : start s -> N <= mc_batch k -> mab_loop M k fuel s = Ok s' ->
  ms_q s' = busy * N /\
  forall f b v, arm f b -> edge_at hs0 f b v -> ms_est s' f b = Fin (true_change M k ic f v).
Proof.
  intros ST LE H. pose proof ST as [I IN HH HP Q L5]. destruct fuel as [|fuel]; cbn [mab_loop] in H; rewrite (proj2 (Nat.ltb_lt _ _) L5) in H; [discriminate|].
  apply rbind_ok in H. destruct H as [[s1 brk] [E H]]. unfold mab_body in E. apply rbind_ok in E. destruct E as [[s2 b2] [E2 E]].
  destruct (mc_repl k) eqn:R.
  - destruct (exact_block_first s s2 b2 ST R E2) as [[G _]|[_ [G1 [G2 G3]]]]; [lia|].
    assert (s1 = s2 /\ brk = true).
    { destruct b2; [now injection E as <- <-|]. rewrite G2 in E. cbn [length Nat.leb] in E. now injection E as <- <-. }
    destruct H0 as [-> ->]. injection H as <-. auto.
  - injection E2 as <- <-.
    assert (L1 : (length (ms_cand s) <=? 1) = false) by (apply Nat.leb_gt; lia). rewrite L1 in E.
    pose proof (sc_pos _ _ _ _ SC) as PN.
    assert (NP : ms_pop s <> Some []).
    { rewrite HP. intros Z. injection Z as Z. apply (f_equal (@length _)) in Z. rewrite arange_length in Z. cbn in Z. lia. }
    assert (E' : sample_block M k s = Ok (s1, brk)) by (destruct (ms_pop s) as [[|]|]; [congruence|exact E..]). clear E.
    pose proof (first_block s s1 brk ST E') as FQ.
    destruct (sample_block_inv _ _ _ _ _ E') as [r [ER [LA [_ [RA [EE [_ [EP _]]]]]]]].
    assert (AR : forall f b, In (f, b) (ms_cand s) -> arm f b) by (intros; now apply (mi_cand _ _ _ _ _ _ I)).
    destruct (round_ok M k hs0 ic cl SC _ _ _ _ _ _ (mi_hists _ _ _ _ _ _ I) (mi_pop _ _ _ _ _ _ I) (mi_sorted _ _ _ _ _ _ I) AR (sc_batch _ _ _ _ SC) NP ER) as [_ [R2 [_ [R4 _]]]].
    rewrite R in R4. assert (PE : ms_pop s1 = Some []).
    { rewrite EP. unfold pop_ok in R2. destruct (sr_pop r) as [P|]; [|congruence]. rewrite HP in R4. cbn [left_in] in R4. unfold drawn in R4.
      rewrite arange_length in R4. destruct P; auto. cbn [length] in R4. lia. }
    assert (s' = s1).
    { destruct brk; [now injection H|]. destruct fuel as [|fuel]; cbn [mab_loop] in H; destruct (5 <? length (ms_cand s1)); try discriminate; try now injection H.
      apply rbind_ok in H. destruct H as [[s3 b3] [E3 H]]. unfold mab_body in E3. rewrite R in E3. cbn [rbind] in E3.
      assert (Z : Ok (s1, true) = Ok (s3, b3)) by (destruct (length (ms_cand s1) <=? 1); [exact E3|rewrite PE in E3; exact E3]).
      injection Z as <- <-. now injection H. }
    subst s'. split.
    + rewrite FQ, HP. unfold drawn. rewrite arange_length. rewrite Nat.min_l; auto.
    + intros f b v A EA.
      destruct (full_round M k hs0 ic cl SC (ms_hists s) (ms_cand s) (mc_batch k) (ms_pop s) (ms_gen s) r) as [irs [T1 [T2 T3]]]; auto.
      { apply I. } { intros. eapply start_fresh; eauto. }
      assert (J : In (f, b) (ms_cand s)) by now apply (proj1 IN).
      destruct (upds_in (ms_cand s) (sr_ir r) (ms_est s) f b (mi_nodup _ _ _ _ _ _ I) LA J) as [i [J1 J2]].
      rewrite T1, nth_error_map, (T3 i f b v J1 EA) in J2. cbn in J2. rewrite EE, T1. congruence.
Qed.

(** ** One round, when some confidence bound is NaN *)
Lemma xmin_list_nan l u : xmin_list l = Ok u -> In NaN l -> u = NaN.
Proof.
  assert (G : forall l a, is_nan a = true \/ In NaN l -> fold_left xmin2 l a = NaN).
  { induction l0 as [|b l0 IH]; cbn; intros a [H|H]; try contradiction.
    - destruct a; try discriminate; auto.
    - apply IH. left. destruct a; try discriminate. reflexivity.
    - destruct H as [->|H]; [|now apply IH; right]. apply IH. left. unfold xmin2. destruct a; reflexivity. }
  destruct l as [|a l]; [discriminate|]. cbn. intros H [->|I]; injection H as <-; apply G; auto.
Qed.

Lemma nan_stops s s' brk f b : sample_block M k s = Ok (s', brk) -> NoDup (ms_cand s) ->
  (forall r, sample_targets M (mc_measure k) (mc_data k) (mc_labels k) (ms_cand s) (ms_hists s) (mc_batch k) (ms_pop s) (ms_gen s) = Ok r ->
     exists i, nth_error (ms_cand s) i = Some (f, b) /\ nth_error (sr_cb r) i = Some NaN) ->
  brk = true \/ ms_cand s' = [].
Proof.
  intros H ND NN. destruct (sample_block_inv _ _ _ _ _ H) as [r [ER [LA [LU [RA [_ [EU [_ [_ EC]]]]]]]]]. destruct brk; auto. right.
  destruct (EC eq_refl) as [um [mi [EM ->]]]. destruct (NN r ER) as [i [N1 N2]].
  assert (J : In (f, b) (ms_cand s)) by (eapply nth_error_In; eauto).
  destruct (nth_error (sr_ir r) i) as [x|] eqn:X; [|apply nth_error_None in X; rewrite <- LA in X; apply nth_error_None in X; congruence].
  assert (V : nth_error (add_const (sr_ir r) (sr_cb r)) i = Some NaN).
  { unfold add_const. rewrite nth_error_map. rewrite (nth_error_combine _ _ _ _ _ X N2). destruct x; reflexivity. }
  assert (U : ms_ucb s' f b = NaN).
  { rewrite EU. destruct (upds_in (ms_cand s) (add_const (sr_ir r) (sr_cb r)) (ms_ucb s) f b ND LU J) as [i' [J1 J2]].
    assert (i' = i). { eapply NoDup_nth_error; eauto. apply nth_error_Some. congruence. congruence. } congruence. }
  assert (um = NaN). { eapply xmin_list_nan; eauto. unfold flat. apply in_map_iff. exists (f, b). split; auto. apply cells_in. auto. }
  subst um. unfold next_cand.
  assert (G : forall l : list (nat * nat), filter (fun c => let f0 := fst c in let b0 := snd c in
    negb (ms_exact s f0 b0) && xlt (ms_lcb s' f0 b0) NaN && xlt (ms_lcb s' f0 b0) (Fin (mc_mir k)) && negb (tied k (ms_est s') mi f0 b0)) l = []).
  { induction l as [|c l IH]; auto. cbn [filter]. cbv zeta. assert (Z : xlt (ms_lcb s' (fst c) (snd c)) NaN = false) by (destruct (ms_lcb s' (fst c) (snd c)); reflexivity).
    rewrite Z, andb_false_r. cbn. exact IH. }
  apply G.
Qed.

Lemma one_round fuel s s' f b : start s -> arm f b ->
  (mc_repl k = true -> mc_batch k < N) ->
  (forall r, sample_targets M (mc_measure k) (mc_data k) (mc_labels k) (ms_cand s) (ms_hists s) (mc_batch k) (ms_pop s) (ms_gen s) = Ok r ->
     exists i, nth_error (ms_cand s) i = Some (f, b) /\ nth_error (sr_cb r) i = Some NaN) ->
  mab_loop M k fuel s = Ok s' -> ms_q s' = busy * drawn k (ms_pop s) (mc_batch k).
Proof.
  intros ST A SM NN H. pose proof ST as [I IN HH HP Q L5]. destruct fuel as [|fuel]; cbn [mab_loop] in H; rewrite (proj2 (Nat.ltb_lt _ _) L5) in H; [discriminate|].
  apply rbind_ok in H. destruct H as [[s1 brk] [E H]]. unfold mab_body in E. apply rbind_ok in E. destruct E as [[s2 b2] [E2 E]].
  assert (Z : s2 = s /\ b2 = false).
  { destruct (mc_repl k) eqn:R; [|now injection E2 as <- <-]. destruct (exact_block_first s s2 b2 ST R E2) as [[_ G]|[G _]]; auto. specialize (SM eq_refl). lia. }
  destruct Z as [-> ->].
  assert (L1 : (length (ms_cand s) <=? 1) = false) by (apply Nat.leb_gt; lia). rewrite L1 in E.
  assert (NP : ms_pop s <> Some []).
  { rewrite HP. destruct (mc_repl k); [discriminate|]. intros Z. injection Z as Z. apply (f_equal (@length _)) in Z. rewrite arange_length in Z.
    pose proof (sc_pos _ _ _ _ SC). cbn in Z. lia. }
  assert (E' : sample_block M k s = Ok (s1, brk)) by (destruct (ms_pop s) as [[|]|]; [congruence|exact E..]). clear E.
  pose proof (first_block s s1 brk ST E') as FQ.
  assert (s' = s1); [|congruence].
  destruct brk; [now injection H|]. destruct (nan_stops s s1 false f b E' (mi_nodup _ _ _ _ _ _ I) NN) as [|EC]; [discriminate|].
  destruct fuel; cbn [mab_loop] in H; rewrite EC in H; now injection H.
Qed.
End Full.

(** ** An empty side has an undefined confidence bound *)
Lemma probs_zero counts x : In x (class_probs counts 0) -> x = 0%Qc.
Proof.
  unfold class_probs. intros I. apply in_map_iff in I. destruct I as [c [<- _]]. unfold xdiv.
  assert (Z : qeq (Nq 0) 0 = true) by (apply qeq_spec; reflexivity). rewrite Z.
  unfold xinf_mul. destruct (xsign (Nq c)); reflexivity.
Qed.
Lemma prob_var_nan pop : prob_var pop 0 0%Qc = NaN.
Proof. unfold prob_var. destruct pop; reflexivity. Qed.
Lemma class_var_nan M m counts pop g v : 2 <= length counts -> class_impurity M m counts pop 0 = Ok (g, v) -> v = NaN.
Proof.
  intros L H.
  assert (GG : get_gini counts pop (Some 0) = Ok (g, v) -> v = NaN).
  { unfold get_gini. cbn [opt_n]. pose proof (probs_zero counts) as Z.
    assert (LP : length (class_probs counts 0) = length counts) by (unfold class_probs; now rewrite map_length).
    destruct (class_probs counts 0) as [|a p]; [discriminate|]. destruct p as [|b p]; [cbn in LP; lia|].
    intros K. apply ok_pair_inv in K. destruct K as [_ <-].
    change (removelast (a :: b :: p)) with (a :: removelast (b :: p)). cbn [map xsum fold_right].
    rewrite (Z a (or_introl eq_refl)), prob_var_nan. reflexivity. }
  unfold class_impurity in H. destruct m; try discriminate; auto.
  unfold get_entropy in H. cbn [opt_n] in H. pose proof (probs_zero counts) as Z.
  assert (LP : length (class_probs counts 0) = length counts) by (unfold class_probs; now rewrite map_length).
  destruct (class_probs counts 0) as [|a p]; [cbn in LP; lia|]. destruct p as [|b p]; [cbn in LP; lia|].
  cbn [map] in H. destruct p as [|c p]; [|cbn [map] in H; discriminate].
  cbn [map] in H. apply ok_pair_inv in H. destruct H as [_ <-]. rewrite (Z a (or_introl eq_refl)), prob_var_nan. reflexivity.
Qed.

Lemma xadd_nan_r a : xadd a NaN = NaN.
Proof. now destruct a. Qed.
Lemma reductions_nan M m h bs ps rv j b r : h_class h = true -> get_impurity_reductions M m h bs ps = Ok rv ->
  nth_error bs j = Some b -> nth_error (h_right h) b = Some r -> sum_nat r = 0 -> 2 <= length r ->
  nth_error (snd rv) j = Some NaN.
Proof.
  intros C H Hb Hr Z L. unfold get_impurity_reductions in H. rewrite C in H.
  apply rbind_ok in H. destruct H as [[] [_ H]]. apply rbind_ok in H. destruct H as [l0 [_ H]].
  apply rbind_ok in H. destruct H as [r0 [_ H]]. apply rbind_ok in H. destruct H as [sides [ES H]].
  destruct (mapM_nth' _ _ _ _ _ ES Hb) as [s [Hs K]].
  apply rbind_ok in K. destruct K as [l [_ K]]. apply rbind_ok in K. destruct K as [r' [K2 K]].
  apply nth_res_ok in K2. rewrite Hr in K2. injection K2 as <-. rewrite Z in K.
  apply rbind_ok in K. destruct K as [[] [_ K]]. apply rbind_ok in K. destruct K as [[gl vl] [_ K]].
  apply rbind_ok in K. destruct K as [[gr vr] [K3 K]]. apply class_var_nan in K3; auto. subst vr. injection K as <-.
  destruct (rev sides) as [|[ab ln] rs]; [discriminate|]. apply rbind_ok in H. destruct H as [c [_ H]]. injection H as <-.
  cbn [snd]. rewrite nth_error_map, Hs. cbn [option_map snd weigh]. f_equal.
  unfold weigh. cbn [snd]. cbn [xmul]. now rewrite xadd_nan_r.
Qed.

Lemma right_empty_counts cl f e (T : table) : right_part f e T = [] -> sum_nat (class_counts cl (labels_of (right_part f e T))) = 0.
Proof. intros ->. unfold class_counts. cbn. induction cl; auto. Qed.

Section Nan.
Context (M : math) (k : mcfg) (hs0 : list hist) (cl : list Qc) (SC : static k hs0 true cl).
(** If no value of feature f exceeds edge b, the bound of the arm (f, b) is undefined. *)
Lemma top_edge_nan s f b v r : minv M k hs0 true cl s -> In (f, b) (ms_cand s) -> edge_at hs0 f b v ->
  (forall x, In x (mc_data k) -> (nth f x 0 <= v)%Qc) -> 2 <= length cl -> ms_pop s <> Some [] ->
  sample_targets M (mc_measure k) (mc_data k) (mc_labels k) (ms_cand s) (ms_hists s) (mc_batch k) (ms_pop s) (ms_gen s) = Ok r ->
  exists i, nth_error (ms_cand s) i = Some (f, b) /\ nth_error (sr_cb r) i = Some NaN.
Proof.
  intros I J EA TOP K2 NP ER. pose proof (sc_N _ _ _ _ SC) as EN.
  destruct (sample_targets_spec _ _ _ _ _ _ _ _ _ _ ER (mi_sorted _ _ _ _ _ _ I) (sc_labels _ _ _ _ SC))
    as [idcs [ps [X [Y [ED [VI [EX [EY [EC [EQ [EL [EO [EI [irs [vs [EIR [ECB [L1 [L2 SCO]]]]]]]]]]]]]]]]]]].
  apply In_nth_error in J. destruct J as [i Hi]. exists i. split; auto.
  destruct (SCO i f b Hi) as [ir [vv [Q1 [Q2 [h' [bs [rv [j [Q3 [Q4 [Q5 [Q6 Q7]]]]]]]]]]]].
  rewrite ECB, nth_error_map, Q2. cbn. f_equal. cut (vv = NaN); [now intros ->|].
  assert (Iacc : In (f, b) (ms_cand s)) by (eapply nth_error_In; eauto).
  assert (Jf : In f (map fst (ms_cand s))) by (apply in_map_iff; exists (f, b); auto).
  destruct (mi_hists _ _ _ _ _ _ I) as [_ HO]. destruct EA as [h0 [e0 [Z1 [Z2 Z3]]]].
  destruct (HO f h0 Z1) as [h [J0 [E1 [E2 [E3 [E4 [E5 E6]]]]]]].
  destruct (EI f Jf) as [h1 [h2 [K1 [K2' K3]]]]. rewrite E1 in K1. injection K1 as <-. rewrite Q3 in K3. injection K3 as <-.
  destruct (hist_add_state _ _ _ _ _ _ _ _ E4 K2') as [_ [S1 [S2 [S3 _]]]].
  pose proof (sf_rows _ _ _ _ _ S1) as SR. rewrite S2, E2, Z2 in SR. destruct SR as [_ [_ SR]].
  rewrite (sf_class _ _ _ _ _ S1) in SR. destruct SR as [[_ CR] _]. rewrite (sf_feat _ _ _ _ _ S1), (sf_classes _ _ _ _ _ S1) in CR.
  assert (RE : right_part f v (rows_at (mc_data k) (mc_labels k) J0 ++ combine X Y) = []).
  { rewrite EC. unfold right_part, rows_at. rewrite <- map_app. 
    assert (G : forall l, (forall z, In z l -> z < length (mc_data k)) -> filter (fun r0 => negb (is_left f v r0)) (map (fun i0 => nth i0 (combine (mc_data k) (mc_labels k)) ([], 0%Qc)) l) = []).
    { induction l as [|z l IH]; intros V; auto. cbn [map filter]. rewrite IH by (intros; apply V; now right).
      rewrite combine_nth by (symmetry; apply (sc_labels _ _ _ _ SC)).
      assert (T : is_left f v (nth z (mc_data k) [], nth z (mc_labels k) 0%Qc) = true).
      { rewrite is_left_qle. apply qle_spec. unfold value_of. cbn [fst]. apply TOP, nth_In, V. now left. }
      now rewrite T. }
    apply G. intros z K. apply in_app_or in K. destruct K; auto. rewrite <- EN. auto. }
  assert (N : nth_error (snd rv) j = Some NaN); [|congruence].
  eapply reductions_nan with (r := class_counts cl (labels_of (right_part f v (rows_at (mc_data k) (mc_labels k) J0 ++ combine X Y)))); eauto.
  - apply S1.
  - rewrite CR. unfold rcounts. rewrite nth_error_map, Z3. reflexivity.
  - now apply right_empty_counts.
  - unfold class_counts. now rewrite map_length.
Qed.
End Nan.

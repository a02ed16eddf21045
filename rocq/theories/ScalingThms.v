(** What the scaling experiment records. *)
From Coq Require Import List Arith Bool ZArith QArith Qcanon Lia.
From Verif Require Import Base Num Rng Histogram Utils Criteria Solvers Tree Forest Wrappers Compare Scaling Spec SolverSpec TreeSpec ForestSpec WrapSpec CompareSpec BanditSpec ScalingSpec.
From Verif Require Import NumFacts ListFacts SampleFacts DrawFacts TreeFacts UtilsFacts VarFacts HistFacts ForestFacts ForestRepro ForestLife WrapFacts WrapLife CompareThms ReportThms StabThms BanditThms BanditForest.
Import ListNotations.
Local Open Scope nat_scope.

Lemma take_nth {A} (l : list A) d idcs l' : take_idx l idcs = Ok l' -> l' = map (fun i => nth i l d) idcs.
Proof. unfold take_idx. apply mapM_ok_map. intros i b _ H. apply nth_res_ok in H. symmetry. now apply nth_error_nth. Qed.
Lemma sweep_settled P (cl : bool) X b Y e o h e1 : construct P (if cl then HistogramRandomForestClassifier else HistogramRandomForestRegressor)
      ([(Kdata, VTable X); (Klabels, VArr 0); (Ksolver, VSolver MAB); (Krandom_state, VInt 0)] ++ sweep_opts cl) [{| la_int := b; la_vals := Y |}] e = Ok (o, h, e1) ->
  sweep_settings cl (wo_cfg o) /\ h = [{| la_int := b; la_vals := Y |}] /\ e1 = set_seed P 0 e /\ f_data (wo_forest o) = Some X /\ f_org (wo_forest o) = Some 0 /\ f_new (wo_forest o) = Some 0 /\
  f_queries (wo_forest o) = 0 /\ f_dd (wo_forest o) = None /\ f_minmax (wo_forest o) = None /\ fc_alpha_N (wo_cfg o) = 1%Qc /\ fc_alpha_F (wo_cfg o) = 1%Qc /\
  (cl = true -> f_classes (wo_forest o) = class_to_idx (unique Y)).
Proof.
  destruct cl; intros H.
  - assert (K : exists o', construct P HistogramRandomForestClassifier ([(Kdata, VTable X); (Klabels, VArr 0); (Ksolver, VSolver MAB); (Krandom_state, VInt 0)] ++ sweep_opts true) [{| la_int := b; la_vals := Y |}] e = Ok (o', [{| la_int := b; la_vals := Y |}], set_seed P 0 e) /\
      sweep_settings true (wo_cfg o') /\ f_data (wo_forest o') = Some X /\ f_org (wo_forest o') = Some 0 /\ f_new (wo_forest o') = Some 0 /\
      f_queries (wo_forest o') = 0 /\ f_dd (wo_forest o') = None /\ f_minmax (wo_forest o') = None /\ fc_alpha_N (wo_cfg o') = 1%Qc /\ fc_alpha_F (wo_cfg o') = 1%Qc /\ f_classes (wo_forest o') = class_to_idx (unique Y)).
    { eexists. split; [reflexivity|]. split; [constructor; reflexivity|]. repeat split. }
    destruct K as (o' & K & S). rewrite K in H. apply ok_inv in H. apply pair_equal_spec in H. destruct H as [H <-]. apply pair_equal_spec in H. destruct H as [<- <-]. destruct S as (S1 & S2 & S3 & S4 & S5 & S6 & S7 & S8 & S9 & S10). repeat (split; [assumption || reflexivity|]). auto.
  - assert (K : exists o', construct P HistogramRandomForestRegressor ([(Kdata, VTable X); (Klabels, VArr 0); (Ksolver, VSolver MAB); (Krandom_state, VInt 0)] ++ sweep_opts false) [{| la_int := b; la_vals := Y |}] e = Ok (o', [{| la_int := b; la_vals := Y |}], set_seed P 0 e) /\
      sweep_settings false (wo_cfg o') /\ f_data (wo_forest o') = Some X /\ f_org (wo_forest o') = Some 0 /\ f_new (wo_forest o') = Some 0 /\
      f_queries (wo_forest o') = 0 /\ f_dd (wo_forest o') = None /\ f_minmax (wo_forest o') = None /\ fc_alpha_N (wo_cfg o') = 1%Qc /\ fc_alpha_F (wo_cfg o') = 1%Qc).
    { eexists. split; [reflexivity|]. split; [constructor; reflexivity|]. repeat split. }
    destruct K as (o' & K & S). rewrite K in H. apply ok_inv in H. apply pair_equal_spec in H. destruct H as [H <-]. apply pair_equal_spec in H. destruct H as [<- <-]. destruct S as (S1 & S2 & S3 & S4 & S5 & S6 & S7 & S8 & S9). repeat (split; [assumption || reflexivity|]). discriminate.
Qed.

Lemma sweep_plain (cl : bool) : ~ patched (if cl then HistogramRandomForestClassifier else HistogramRandomForestRegressor).
Proof. unfold patched. destruct cl; intros [Q|[Q|[Q|Q]]]; discriminate Q. Qed.
Lemma mean_one q : mean [q] = q.
Proof. unfold mean. cbn [total length]. change (rat 1) with 1%Qc. rewrite Qcplus_0_r. unfold Qcdiv. replace (/ 1)%Qc with 1%Qc by (now apply Qc_is_canon). apply Qcmult_1_r. Qed.

Lemma draws_are m k t : fst (draws_mod m k t) = map (fun j => nth j t 0 mod m) (seq 0 k).
Proof.
  revert t. induction k as [|k IH]; intros t; [reflexivity|]. cbn [draws_mod seq map]. destruct t as [|a t]; cbn [draw].
  - specialize (IH []). destruct (draws_mod m k []) as [l t']. cbn [fst] in *. f_equal. rewrite IH, <- seq_shift, map_map. apply map_ext. intros j. destruct j; reflexivity.
  - specialize (IH t). destruct (draws_mod m k t) as [l t']. cbn [fst] in *. f_equal. rewrite IH, <- seq_shift, map_map. reflexivity.
Qed.
Lemma choice_are m k t l t' : choice_repl (arange m) k t = Ok (l, t') -> l = map (fun j => nth j t 0 mod m) (seq 0 k).
Proof.
  unfold choice_repl. rewrite (SampleFacts.arange_length). destruct ((m =? 0) && negb (k =? 0)) eqn:E; [discriminate|].
  pose proof (draws_are m k t) as D. destruct (draws_mod m k t) as [l0 t0]. cbn [fst] in D. intros Q. apply ok_pair_inv in Q. destruct Q as [<- _]. subst l0. rewrite map_map. apply map_ext_in. intros j I. apply in_seq in I.
  destruct m as [|m]; [destruct k; [lia|discriminate E]|]. unfold arange. rewrite seq_nth; [reflexivity|]. apply Nat.mod_upper_bound. lia.
Qed.

(** ** One fitting seed *)
Theorem once_is_fit M P cl X Y size s e v e' : sweep_once M P cl X Y size s e = Ok (v, e') -> exists e0 c q, one_fit M P cl X Y size s e0 c q /\ v = Fin (Nq q).
Proof.
  intros H. unfold sweep_once in H. cbv zeta in H. apply rbind_ok in H. destruct H as [[idcs g] [E1 H]]. cbn [fst] in H. apply rbind_ok in H. destruct H as [X' [E2 H]]. apply rbind_ok in H. destruct H as [Y' [E3 H]].
  apply rbind_ok in H. destruct H as [[[rp h1] e1] [E4 H]]. apply ok_pair_inv in H. destruct H as [<- <-].
  destruct (choice_repl_spec _ _ _ _ _ E1) as [_ I]. pose proof (choice_are _ _ _ _ _ E1) as L. rewrite (take_nth _ [] _ _ E2) in E4. rewrite (take_nth _ 0%Qc _ _ E3) in E4.
  set (X1 := map _ idcs) in E4. set (Y1 := map _ idcs) in E4. unfold compare in E4. apply rbind_ok in E4. destruct E4 as [[[l h2] e2] [R E4]]. cbn [tk_theirs sweep_task] in E4. cbv zeta in E4.
  apply ok_inv in E4. apply pair_equal_spec in E4. destruct E4 as [E4 _]. apply pair_equal_spec in E4. destruct E4 as [<- _]. cbn [rp_ours side_of sd_queries stat_of st_avg].
  destruct (rounds_chain _ _ _ _ _ _ _ _ _ R) as [LL (hs & es & H0 & S0 & _ & _ & RR)]. destruct l as [|[a b] [|]]; try discriminate LL. specialize (RR 0 a b eq_refl). rewrite H0, S0 in RR.
  assert (NP : ~ patched (tk_w (sweep_task cl X1 0))) by (unfold sweep_task; cbn [tk_w]; apply sweep_plain).
  destruct (ours_is_alone _ _ _ _ _ _ _ _ _ _ NP RR) as (hh & ee & (o & h0 & e0 & C1 & C2 & C3) & _).
  eexists _, (en_cfg a), (f_queries (en_forest a)). split.
  - exists idcs, o, h0, e0, (en_forest a), hh, ee. split; [exact L|]. split; [exact I|]. split; [exact C1|]. split; [exact C2|]. split; [exact C3|reflexivity].
  - cbn [map fst]. change (xmean (map (fun x : Qc => Fin x) [Nq (f_queries (en_forest a))]) = Fin (Nq (f_queries (en_forest a)))). rewrite (xmean_fin (fun x : Qc => x) [Nq (f_queries (en_forest a))]) by discriminate. f_equal. cbn [map]. apply mean_one.
Qed.

(** ** The table *)
Lemma size_is_mean M P cl X Y n size e v e' : 1 <= n -> sweep_size M P cl X Y n size e = Ok (v, e') ->
  exists qs, length qs = n /\ v = Fin (mean (map rat qs)) /\ forall k, k < n -> exists e0 c, one_fit M P cl X Y size k e0 c (nth k qs 0).
Proof.
  intros N H. unfold sweep_size in H. apply rbind_ok in H. destruct H as [[acc e1] [E H]]. apply ok_pair_inv in H. destruct H as [<- _]. cbn [fst].
  assert (G : forall n acc e1, foldM (fun s fitting_seed => let '(acc, e) := s in do q <- sweep_once M P cl X Y size fitting_seed e; Ok (xadd acc (fst q), snd q)) (Fin 0%Qc, e) (seq 0 n) = Ok (acc, e1) ->
    exists qs, length qs = n /\ acc = Fin (total (map rat qs)) /\ forall k, k < n -> exists e0 c, one_fit M P cl X Y size k e0 c (nth k qs 0)).
  { clear. induction n as [|n IH]; intros acc e1 E.
    - cbn in E. apply ok_pair_inv in E. destruct E as [<- _]. exists []. split; [reflexivity|]. split; [reflexivity|]. intros k Hk. lia.
    - rewrite seq_S, foldM_app in E. apply rbind_ok in E. destruct E as [[a0 e2] [E0 E]]. destruct (IH _ _ E0) as (qs & L & -> & F). cbn [plus foldM] in E. apply rbind_ok in E. destruct E as [[a1 e3] [E1 E]]. apply ok_pair_inv in E. destruct E as [<- _].
      apply rbind_ok in E1. destruct E1 as [[v e4] [E1 E2]]. cbn [fst snd] in E2. apply ok_pair_inv in E2. destruct E2 as [<- _]. destruct (once_is_fit _ _ _ _ _ _ _ _ _ _ E1) as (e5 & c & q & OF & ->).
      exists (qs ++ [q]). split; [rewrite app_length; cbn; lia|]. split.
      + cbn [xadd]. f_equal. rewrite map_app. change (map rat [q]) with [rat q]. change (Nq q) with (rat q). clear. induction (map rat qs) as [|x l IH]; cbn [total app]; [ring|]. rewrite <- IH. ring.
      + intros k Hk. destruct (Nat.eq_dec k n) as [->|]; [rewrite app_nth2, L, Nat.sub_diag by lia; eauto|]. rewrite app_nth1 by lia. apply F. lia. }
  destruct (G n acc e1 E) as (qs & L & -> & F). exists qs. split; auto. split; auto. rewrite VarFacts.xdiv_fin by (apply Nq_neq0; lia). unfold mean. rewrite map_length, L. reflexivity.
Qed.
Theorem recorded M P cl X Y n sizes e table e' : 1 <= n -> investigate M P cl X Y n sizes e = Ok (table, e') ->
  map fst table = sizes /\ forall size v, In (size, v) table ->
    exists qs, length qs = n /\ v = Fin (mean (map rat qs)) /\ forall k, k < n -> exists e0 c, one_fit M P cl X Y size k e0 c (nth k qs 0).
Proof.
  intros N H. unfold investigate in H. revert table e' H. induction sizes as [|size sizes IH] using rev_ind; intros table e' H.
  - cbn in H. apply ok_pair_inv in H. destruct H as [<- _]. split; [reflexivity|]. intros ? ? [].
  - rewrite foldM_app in H. apply rbind_ok in H. destruct H as [[l e1] [E H]]. destruct (IH _ _ E) as [IH1 IH2]. cbn [foldM] in H. apply rbind_ok in H. destruct H as [[l2 e2] [E1 H]]. apply ok_pair_inv in H. destruct H as [<- _].
    apply rbind_ok in E1. destruct E1 as [[v e3] [E1 E2]]. cbn [fst snd] in E2. apply ok_pair_inv in E2. destruct E2 as [<- _]. split; [rewrite map_app, IH1; reflexivity|].
    intros sz w I. apply in_app_iff in I. destruct I as [I|[Q|[]]]; [now apply IH2|]. injection Q as <- <-. eapply size_is_mean; eauto.
Qed.

(** ** The bound *)
Theorem fit_settings M P cl X Y size s e c q : one_fit M P cl X Y size s e c q -> sweep_settings cl c.
Proof. intros (idcs & o & h & e1 & f & h' & e2 & _ & _ & C & -> & _ & _). exact (proj1 (sweep_settled _ _ _ _ _ _ _ _ _ C)). Qed.
Theorem class_fit_bound M P X Y size s e c q W : one_fit M P true X Y size s e c q -> rectangular W X -> 1 <= W -> length Y = length X -> (forall y, In y Y -> trunc y = y) -> 1 <= size ->
  q <= 5 * (1000 * Nat.sqrt_up W * 31).
Proof.
  intros (idcs & o & h & e1 & f & h' & e2 & L & I & C & -> & F & ->) R W1 LY TY S1. destruct (sweep_settled _ _ _ _ _ _ _ _ _ C) as (ST & -> & -> & D1 & D2 & D3 & D4 & D5 & D6 & D7 & D8 & D9). specialize (D9 eq_refl).
  set (X1 := map (fun i => nth i X []) idcs) in *. set (Y1 := map (fun i => nth i Y 0%Qc) idcs) in *.
  destruct (class_dict_good Y1) as [GC _]. 
  assert (T : forest_trainable (wo_cfg o) (wo_forest o) (None, None) [{| la_int := true; la_vals := Y1 |}] X1 W).
  { constructor; cbn [fst snd].
    - tauto.
    - unfold fit_data. cbn [fst]. now rewrite D1.
    - unfold X1. rewrite map_length, L, map_length, seq_length. lia.
    - exact W1.
    - intros r IR. unfold X1 in IR. apply in_map_iff in IR. destruct IR as (i & <- & Ii). apply R. apply nth_In. now apply I.
    - exists 0, 0, {| la_int := true; la_vals := Y1 |}, {| la_int := true; la_vals := Y1 |}. unfold fit_ref, boost_ref. cbn [snd]. rewrite D2, D3. repeat (split; [reflexivity || (cbn [la_vals]; unfold X1, Y1; now rewrite !map_length)|]).
      intros _ y IY. cbn [la_vals] in IY. rewrite D9. unfold class_to_idx. rewrite map_fst_combine by (rewrite seq_length; lia). apply unique_in. rewrite TY; auto.
      unfold Y1 in IY. apply in_map_iff in IY. destruct IY as (i & <- & Ii). apply nth_In. rewrite LY. now apply I.
    - intros _ k i IK. rewrite D9 in *. destruct GC as (_ & _ & GC). now apply (GC k).
    - rewrite D7, D8. intros Q. discriminate Q.
    - rewrite (ss_sub _ _ ST). exact Logic.I.
    - rewrite (ss_depth _ _ ST). discriminate.
    - rewrite (ss_leaves _ _ ST). discriminate.
    - rewrite (ss_boosting _ _ ST). discriminate.
    - rewrite D5. exact Logic.I.
    - intros _. exact D6. }
  assert (B1 : 1 <= fc_batch (wo_cfg o)) by (rewrite (ss_batch _ _ ST); lia). assert (NB : 2 <= fc_nb (wo_cfg o)) by (rewrite (ss_nb _ _ ST); lia).
  destruct (forest_bandit_bound _ _ _ _ _ _ _ _ _ _ _ _ T F (ss_solver _ _ ST) (ss_class _ _ ST) (ss_bin _ _ ST) B1 (or_intror NB)) as [B _].
  specialize (B 5%Z (ss_depth _ _ ST)). rewrite D4, (ss_n _ _ ST), (ss_batch _ _ ST), (ss_sub _ _ ST) in B. change (2 ^ Z.to_nat 5 - 1) with 31 in B. exact B.
Qed.
Theorem class_table_bound M P X Y n sizes e table e' W : 1 <= n -> investigate M P true X Y n sizes e = Ok (table, e') -> rectangular W X -> 1 <= W -> length Y = length X -> (forall y, In y Y -> trunc y = y) ->
  forall size v, In (size, v) table -> 1 <= size -> exists q, v = Fin q /\ (0 <= q)%Qc /\ (q <= rat (5 * (1000 * Nat.sqrt_up W * 31)))%Qc.
Proof.
  intros N H R W1 LY TY size v I S1. destruct (recorded _ _ _ _ _ _ _ _ _ _ N H) as [_ RC]. destruct (RC size v I) as (qs & L & -> & F). exists (mean (map rat qs)). split; [reflexivity|].
  assert (B : forall q, In q qs -> q <= 5 * (1000 * Nat.sqrt_up W * 31)) by (intros q Iq; destruct (In_nth _ _ 0 Iq) as (k & Hk & <-); rewrite L in Hk; destruct (F k Hk) as (e0 & c & OF); eapply class_fit_bound; eauto).
  revert B. generalize (5 * (1000 * Nat.sqrt_up W * 31)). intros K B. 
  assert (T : (0 <= total (map rat qs) /\ total (map rat qs) <= rat (length qs) * rat K)%Qc).
  { clear -B. induction qs as [|q qs IH]; [cbn [map total length]; split; [apply Qcle_refl|]; change (rat 0) with 0%Qc; rewrite Qcmult_0_l; apply Qcle_refl|]. cbn [map total length]. destruct (IH (fun x Ix => B x (or_intror Ix))) as [I1 I2].
    pose proof (B q (or_introl eq_refl)) as BQ. assert (0 <= rat q)%Qc by (change (rat q) with (Nq q); apply Nq_nonneg). assert (rat q <= rat K)%Qc by (change (Nq q <= Nq K)%Qc; now apply Nq_le).
    assert (E : rat (S (length qs)) = (1 + rat (length qs))%Qc) by (change (Nq (S (length qs)) = 1 + Nq (length qs))%Qc; rewrite Nq_S; ring). rewrite E. split; qnra. }
  unfold mean. rewrite map_length, L. rewrite L in T. assert (NP : (0 < rat n)%Qc) by (change (0 < Nq n)%Qc; now apply Nq_pos). destruct T as [T1 T2].
  assert (NZ : rat n <> 0%Qc) by (intros Q; rewrite Q in NP; exact (Qclt_not_eq _ _ NP eq_refl)).
  split.
  - apply Qcmult_lt_0_le_reg_r with (z := rat n); auto. rewrite Qcmult_0_l, Qcmult_comm, Qcmult_div_r; auto.
  - apply Qcmult_lt_0_le_reg_r with (z := rat n); auto. rewrite (Qcmult_comm (_ / _)%Qc), Qcmult_div_r, Qcmult_comm; auto.
Qed.

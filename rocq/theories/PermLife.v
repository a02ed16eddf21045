(** The life of a PermutationImportance object. *)
From Coq Require Import List Arith Bool ZArith QArith Qcanon Lia Permutation.
From Verif Require Import Base Num Rng Histogram Utils Criteria Solvers Tree Forest Permutation.
From Verif Require Import Spec TreeSpec ForestSpec PermSpec ListFacts NumFacts TreeFacts UtilsFacts ForestFacts ForestMdi ForestLife ForestRepro ForestThms.
Import ListNotations.
Local Open Scope nat_scope.

Lemma xle_zero x y : xle x y = true -> xle y (Fin 0) = true -> xle x (Fin 0) = true.
Proof.
  intros A B. unfold xle in *. destruct x as [x| | |], y as [y| | |]; cbn [xlt xeq orb] in *; try discriminate; auto. rewrite orb_true_iff in *. rewrite qlt_spec, qeq_spec in A, B. rewrite qlt_spec, qeq_spec. destruct A as [A|A], B as [B|B].
  all: subst; auto. left. exact (Qclt_trans _ _ _ A B).
Qed.

Lemma larr_dec (a b : option larr) : {a = b} + {a <> b}.
Proof. decide equality. decide equality; [apply (list_eq_dec Qc_eq_dec)|apply bool_dec]. Qed.

Section Life.
Context (M : math) (P : prng) (c : pcfg).
Notation trained := (trained M P c).

Lemma train_one s seed h e s' h' e' : train_forest M P c s seed h e = Ok (s', h', e') ->
  exists f, ps_forests s' = ps_forests s ++ [f] /\ ps_gen s' = ps_gen s /\ ps_train s' = ps_train s /\ trained f.
Proof.
  intros H. unfold train_forest in H. apply rbind_ok in H. destruct H as [[f0 e0] [E1 H]]. apply rbind_ok in H. destruct H as [[[f h1] e1] [E2 H]]. cbn [fst snd] in E2.
  apply ok_inv in H. apply pair_equal_spec in H. destruct H as [H <-]. apply pair_equal_spec in H. destruct H as [<- <-].
  exists f. cbn. split; [reflexivity|]. split; [reflexivity|]. split; [reflexivity|]. exists seed, h, e, f0, e0, f, h1, e1. split; auto. split; auto. apply used_not.
Qed.
Lemma train_all s h e s' h' e' : train_forests M P c s h e = Ok (s', h', e') ->
  exists fs, ps_forests s' = ps_forests s ++ fs /\ length fs = pc_forests c /\ ps_train s' = ps_train s /\ Forall trained fs.
Proof.
  intros H. unfold train_forests in H.
  refine (_ (foldM_seq_inv _ (fun k she => exists fs, ps_forests (fst (fst she)) = ps_forests s ++ fs /\ length fs = k /\ ps_train (fst (fst she)) = ps_train s /\ Forall trained fs) _ _ _ _ H _ _)).
  - intros K. exact K.
  - exists []. cbn. now rewrite app_nil_r.
  - intros i [[s1 h1] e1] [[s2 h2] e2] (fs & A & B & C & D) E. cbn [fst] in *. destruct (draw (ps_gen s1)) as [seed gen']. apply train_one in E. cbn [ps_forests ps_train ps_gen] in E. destruct E as (f & F1 & _ & F3 & F4).
    exists (fs ++ [f]). rewrite F1, A, <- app_assoc, app_length. cbn. split; auto. split; [lia|]. split; [congruence|]. apply Forall_app. auto.
Qed.
Lemma mdi_trees f arr f' : calculate_mdi f = Ok (arr, f') -> f_trees f' = f_trees f /\ f_mdg f' = Some arr.
Proof.
  unfold calculate_mdi. intros H. destruct (f_mdg f) eqn:E; [apply ok_pair_inv in H; destruct H as [<- <-]; auto|].
  apply rbind_ok in H. destruct H as [? [_ Q]]. apply rbind_ok in Q. destruct Q as [? [_ Q]]. apply rbind_ok in Q. destruct Q as [? [_ Q]]. apply ok_pair_inv in Q. destruct Q as [-> <-]. auto.
Qed.
Lemma trained_facts f : trained f -> exists seed f0 h e0 f1 h1 e1, forest_fit M P (forest_cfg c seed) f0 (None, None) h e0 = Ok (f1, h1, e1) /\ used (forest_cfg c seed) h1 f1 f /\
  fit_data f0 (None, None) = Some (pc_data c) /\ some_rows (forest_cfg c seed) (length (pc_data c)) /\ f_mdg f0 = None.
Proof.
  intros (seed & h & e & f0 & e0 & f1 & h1 & e1 & N & F & U). exists seed, f0, h, e0, f1, h1, e1. split; auto. split; auto. unfold forest_new in N.
  apply rbind_ok in N. destruct N as [cls [_ N]]. apply rbind_ok in N. destruct N as [? [_ N]]. apply rbind_ok in N. destruct N as [? [_ N]]. apply rbind_ok in N. destruct N as [? [_ N]]. apply ok_pair_inv in N. destruct N as [<- _].
  cbn [fit_data fst f_data f_mdg]. split; auto. split; auto. split.
  - unfold forest_fit in F. apply rbind_ok in F. destruct F as [[[od og] nw] [E1 F]]. cbn [fst snd f_data] in E1. apply rbind_ok in F. destruct F as [d [E2 F]]. apply rbind_ok in F. destruct F as [r0 [E3 F]].
    assert (D : d = pc_data c). { cbn in E1. injection E1 as <- <- <-. cbn in E2. now injection E2. } subst d. unfold nth_res in E3. destruct (pc_data c); [discriminate|cbn; lia].
  - intros Q. exfalso. vm_compute in Q. discriminate Q.
Qed.
Lemma mdi_trained f : trained f -> exists arr f', calculate_mdi f = Ok (arr, f') /\ importance (pc_data c) arr f /\ trained f' /\ Forall (fun v => xle v (Fin 0) = true) arr.
Proof.
  intros T. pose proof T as T'. destruct (trained_facts f T) as (seed & f0 & h & e0 & f1 & h1 & e1 & F & U & D & S & Z). destruct (mdi_importance M P (forest_cfg c seed) f0 (None, None) h e0 f1 h1 e1 f F U (pc_data c) D S Z) as (arr & f' & E & I).
  exists arr, f'. split; auto. split; auto. split.
  - destruct T as (sd & g & e & g0 & d0 & g1 & k1 & d1 & A & B & CC). exists sd, g, e, g0, d0, g1, k1, d1. split; auto. split; auto. eapply used_mdi; eauto.
  - apply Forall_forall. intros v J. apply In_nth_error in J. destruct J as [j J]. destruct I as [_ I]. rewrite (I j v J). destruct (mdi_signs M P (forest_cfg c seed) f0 (None, None) h e0 f1 h1 e1 f F U (pc_data c) D S j) as (_ & A & B).
    exact (xle_zero _ _ A B).
Qed.

Definition row_of (f : forest) (row : list xn) : Prop := exists arr, row = map xopp arr /\ importance (pc_data c) arr f /\ f_mdg f = Some arr.

(** The loop over the forests, for the impurity score. *)
Lemma rows_loop : pc_score c = IImpurity -> forall s h, ps_train s = true -> Forall trained (ps_forests s) -> exists rows s',
  foldM (fun acc i => do v <- compute_importance_vec c (snd acc) i h; Ok (fst acc ++ [fst v], snd v)) ([], s) (seq 0 (length (ps_forests s))) = Ok (rows, s') /\
  Forall2 row_of (ps_forests s') rows /\ Forall trained (ps_forests s') /\ ps_train s' = true /\ ps_gen s' = ps_gen s /\ map f_trees (ps_forests s') = map f_trees (ps_forests s) /\
  Forall (Forall (fun v => xle (Fin 0) v = true)) rows.
Proof.
  intros SC s h TR. remember (ps_forests s) as rest eqn:ER. assert (K : forall rest pre rows s, ps_forests s = pre ++ rest -> ps_train s = true -> Forall trained pre -> Forall trained rest -> Forall2 row_of pre rows -> Forall (Forall (fun v => xle (Fin 0) v = true)) rows ->
    exists rows' s', foldM (fun acc i => do v <- compute_importance_vec c (snd acc) i h; Ok (fst acc ++ [fst v], snd v)) (rows, s) (seq (length pre) (length rest)) = Ok (rows', s') /\
    Forall2 row_of (ps_forests s') rows' /\ Forall trained (ps_forests s') /\ ps_train s' = true /\ ps_gen s' = ps_gen s /\ map f_trees (ps_forests s') = map f_trees (ps_forests s) /\ Forall (Forall (fun v => xle (Fin 0) v = true)) rows').
  { clear s rest ER TR. induction rest as [|f rest IH]; intros pre rows s E TR TP TT F2 NN.
    - exists rows, s. cbn. rewrite app_nil_r in E. rewrite E. split; [reflexivity|]. split; [exact F2|]. split; [exact TP|]. split; [exact TR|]. split; [reflexivity|]. split; [reflexivity|exact NN].
    - inversion TT as [|? ? T1 T2]; subst. cbn [length seq foldM]. unfold compute_importance_vec at 1. cbn [snd fst]. rewrite TR. cbn [guard rbind]. unfold nth_res. rewrite E, nth_error_app2, Nat.sub_diag by lia. cbn [nth_error opt_res rbind]. rewrite SC.
      destruct (mdi_trained f T1) as (arr & f' & EM & IM & TM & SG). rewrite EM. cbn [rbind fst snd]. destruct (mdi_trees _ _ _ EM) as [ET EG].
      destruct (IH (pre ++ [f']) (rows ++ [map xopp arr]) (set_forest s (length pre) f' (ps_gen s))) as (rows' & s' & A1 & A2 & A3 & A4 & A5 & A6 & A7).
      + cbn. rewrite E. clear. induction pre; cbn; [reflexivity|]. now f_equal.
      + exact TR.
      + apply Forall_app. auto.
      + auto.
      + apply Forall2_app; auto. constructor; auto. exists arr. split; auto. split; auto. destruct IM as [I1 I2]. split; auto. intros j v J. rewrite ET. auto.
      + apply Forall_app. split; auto. constructor; auto. apply Forall_forall. intros v J. apply in_map_iff in J. destruct J as [w [<- J]]. rewrite Forall_forall in SG. specialize (SG w J). clear -SG. unfold xle in *. destruct w as [w| | |]; cbn [xopp xlt xeq orb] in *; try discriminate; auto.
        rewrite orb_true_iff in *. rewrite qlt_spec, qeq_spec in *. destruct SG as [SG|SG]; [left; qlra|right; subst; apply Qc_is_canon; reflexivity].
      + exists rows', s'. rewrite app_length in A1. cbn [length] in A1. rewrite Nat.add_comm in A1. cbn [Nat.add] in A1. split; auto. split; auto. split; auto. split; auto. split; auto. split; auto. rewrite A6. cbn. rewrite E, !map_app.
        clear -ET. induction pre; cbn; [now rewrite ET|]. now f_equal. }
  intros TT. destruct (K rest [] [] s) as (rows & s' & A); auto. exists rows, s'. rewrite ER at 2. exact A.
Qed.
Lemma reach_trained s : perm_reach M P c s -> pc_score c = IImpurity -> Forall trained (ps_forests s).
Proof.
  intros R SC. induction R as [seed e s e' H|s h e rows s' h' e' R IH H].
  - unfold perm_new in H. apply rbind_ok in H. destruct H as [? [_ H]]. apply ok_pair_inv in H. destruct H as [<- _]. constructor.
  - unfold get_importance_array in H. apply rbind_ok in H. destruct H as [[[s1 h1] e1] [E H]]. apply train_all in E. cbn [ps_forests ps_train] in E. destruct E as (fs & E1 & E2 & E3 & E4).
    destruct (rows_loop SC s1 h1 E3) as (rows' & s2 & L & _ & T & _); [rewrite E1; apply Forall_app; auto|]. rewrite L in H. cbn [rbind fst snd] in H. apply ok_inv in H. apply pair_equal_spec in H. destruct H as [H _]. apply pair_equal_spec in H. destruct H as [H _]. apply pair_equal_spec in H. destruct H as [_ <-]. auto.
Qed.

Lemma array_ok s h e rows s' h' e' : pc_score c = IImpurity -> perm_reach M P c s -> get_importance_array M P c s h e = Ok (rows, s', h', e') ->
  length rows = length (ps_forests s) + pc_forests c /\ Forall2 (fun f row => exists arr, row = map xopp arr /\ importance (pc_data c) arr f) (ps_forests s') rows /\ Forall (Forall (fun v => xle (Fin 0) v = true)) rows.
Proof.
  intros SC R H. pose proof (reach_trained s R SC) as TS. unfold get_importance_array in H. apply rbind_ok in H. destruct H as [[[s1 h1] e1] [E H]]. apply train_all in E. cbn [ps_forests ps_train] in E. destruct E as (fs & E1 & E2 & E3 & E4).
  destruct (rows_loop SC s1 h1 E3) as (rows' & s2 & L & F & T & _ & _ & TR & NN); [rewrite E1; apply Forall_app; auto|]. rewrite L in H. cbn [rbind fst snd] in H. apply ok_inv in H. apply pair_equal_spec in H. destruct H as [H _]. apply pair_equal_spec in H. destruct H as [H _]. apply pair_equal_spec in H. destruct H as [<- <-].
  split; [|split; auto].
  - pose proof (Forall2_len _ _ _ F) as LL. apply (f_equal (@length _)) in TR. rewrite !map_length in TR. rewrite E1, app_length in TR. lia.
  - clear -F. induction F as [|f row fs rows (arr & A & B & _) F IH]; constructor; eauto.
Qed.

(** Rows of forests whose array is cached do not change. *)
Definition cached (f : forest) (row : list xn) : Prop := exists arr, row = map xopp arr /\ f_mdg f = Some arr.
Lemma cached_loop h : pc_score c = IImpurity -> forall rest1 rows1 rest2 pre rows s, Forall2 cached rest1 rows1 -> ps_forests s = pre ++ rest1 ++ rest2 -> ps_train s = true ->
  foldM (fun acc i => do v <- compute_importance_vec c (snd acc) i h; Ok (fst acc ++ [fst v], snd v)) (rows, s) (seq (length pre) (length rest1 + length rest2)) =
  foldM (fun acc i => do v <- compute_importance_vec c (snd acc) i h; Ok (fst acc ++ [fst v], snd v)) (rows ++ rows1, s) (seq (length pre + length rest1) (length rest2)).
Proof.
  intros SC rest1 rows1 rest2 pre rows s F. revert pre rows s. induction F as [|f row rest1 rows1 (arr & -> & MD) F IH]; intros pre rows s E TR.
  - cbn. now rewrite app_nil_r, Nat.add_0_r.
  - cbn [length Nat.add seq foldM]. unfold compute_importance_vec at 1. cbn [snd fst]. rewrite TR. cbn [guard rbind]. unfold nth_res. rewrite E, nth_error_app2, Nat.sub_diag by lia. cbn [app nth_error opt_res rbind]. rewrite SC. unfold calculate_mdi. rewrite MD. cbn [rbind fst snd].
    assert (ES : set_forest s (length pre) f (ps_gen s) = s). { unfold set_forest. destruct s as [g fs t]. cbn in *. f_equal. rewrite E. clear. induction pre; cbn; [reflexivity|]. now f_equal. }
    rewrite ES. specialize (IH (pre ++ [f]) (rows ++ [map xopp arr]) s). rewrite app_length in IH. cbn [length] in IH. replace (length pre + 1) with (S (length pre)) in IH by lia. rewrite IH; auto.
    + rewrite <- app_assoc. cbn [app]. replace (length pre + S (length rest1)) with (S (length pre) + length rest1) by lia. reflexivity.
    + rewrite E, <- app_assoc. reflexivity.
Qed.
Lemma array_again s h e rows s' h' e' hh ee rows2 s2 h2 e2 : pc_score c = IImpurity -> perm_reach M P c s -> get_importance_array M P c s h e = Ok (rows, s', h', e') ->
  get_importance_array M P c s' hh ee = Ok (rows2, s2, h2, e2) -> exists new, rows2 = rows ++ new /\ length new = pc_forests c.
Proof.
  intros SC R H H2. pose proof (array_ok _ _ _ _ _ _ _ SC (reach_array M P c _ _ _ _ _ _ _ R H) H2) as (LN & _ & _). pose proof (reach_trained s R SC) as TS. unfold get_importance_array in H. apply rbind_ok in H. destruct H as [[[s1 h1] e1] [E H]]. apply train_all in E. cbn [ps_forests ps_train] in E. destruct E as (fs & E1 & E2 & E3 & E4).
  destruct (rows_loop SC s1 h1 E3) as (rows' & s3 & L & F & T & _ & _ & TR & NN); [rewrite E1; apply Forall_app; auto|]. rewrite L in H. cbn [rbind fst snd] in H. apply ok_inv in H. apply pair_equal_spec in H. destruct H as [H _]. apply pair_equal_spec in H. destruct H as [H _]. apply pair_equal_spec in H. destruct H as [<- <-].
  pose proof (Forall2_len _ _ _ F) as LL. unfold get_importance_array in H2. apply rbind_ok in H2. destruct H2 as [[[s4 h4] e4] [G H2]]. apply train_all in G. cbn [ps_forests ps_train] in G. destruct G as (fs2 & G1 & G2 & G3 & G4).
  rewrite G1 in H2. rewrite app_length in H2. change (seq 0) with (seq (length (@nil forest))) in H2. rewrite (cached_loop h4 SC (ps_forests s3) rows' fs2 [] [] s4) in H2; auto.
  2:{ clear -F. induction F as [|f row fs rows (arr & A & _ & B) F IH]; constructor; auto. exists arr. auto. }
  apply rbind_ok in H2. destruct H2 as [[rr ss] [Q H2]]. apply ok_inv in H2. apply pair_equal_spec in H2. destruct H2 as [H2 _]. apply pair_equal_spec in H2. destruct H2 as [H2 _]. apply pair_equal_spec in H2. destruct H2 as [<- <-]. cbn [fst] in *.
  assert (X : exists new, rr = ([] ++ rows') ++ new). { revert Q. generalize ([] ++ rows'). generalize (seq (length (@nil forest) + length (ps_forests s3)) (length fs2)). intros l. generalize s4. clear. induction l as [|i l IH]; intros s r Q; cbn [foldM] in Q.
    - apply ok_pair_inv in Q. destruct Q as [<- _]. exists []. now rewrite app_nil_r.
    - apply rbind_ok in Q. destruct Q as [[r1 s1] [A Q]]. cbn [fst snd] in A. apply rbind_ok in A. destruct A as [v [_ A]]. apply ok_pair_inv in A. destruct A as [<- <-]. apply IH in Q. destruct Q as [new ->]. rewrite <- app_assoc. eauto. }
  destruct X as [new ->]. cbn [app] in *. exists new. split; auto. rewrite app_length in LN. lia.
Qed.

(** ** Reproducibility *)
Lemma train_repro s seed h e e' s1 h1 e1 : coming e e' -> train_forest M P c s seed h e = Ok (s1, h1, e1) -> exists e1', train_forest M P c s seed h e' = Ok (s1, h1, e1') /\ coming e1 e1'.
Proof.
  intros C H. unfold train_forest in *. apply rbind_ok in H. destruct H as [[f0 e0] [E1 H]]. apply rbind_ok in H. destruct H as [[[f hh] ee] [E2 H]]. cbn [fst snd] in E2. destruct (new_np _ _ _ _ _ _ _ _ _ _ E1) as [-> N]. rewrite (N e'). cbn [rbind fst snd].
  destruct (fit_reproducible M P (forest_cfg c seed) f0 (None, None) h (set_seed P (fc_seed (forest_cfg c seed)) e) (set_seed P (fc_seed (forest_cfg c seed)) e') f hh ee) as (e2 & E & _ & CM); auto.
  rewrite E. cbn [rbind]. apply ok_inv in H. apply pair_equal_spec in H. destruct H as [H <-]. apply pair_equal_spec in H. destruct H as [<- <-]. eauto.
Qed.
Lemma array_repro s h e e' rows s1 h1 e1 : coming e e' -> get_importance_array M P c s h e = Ok (rows, s1, h1, e1) ->
  exists e1', get_importance_array M P c s h e' = Ok (rows, s1, h1, e1') /\ coming e1 e1'.
Proof.
  intros C H. unfold get_importance_array in *. apply rbind_ok in H. destruct H as [[[s0 h0] e0] [E H]].
  assert (X : exists e0', train_forests M P c {| ps_gen := ps_gen s; ps_forests := ps_forests s; ps_train := true |} h e' = Ok (s0, h0, e0') /\ coming e0 e0').
  { unfold train_forests in *. revert C E. generalize {| ps_gen := ps_gen s; ps_forests := ps_forests s; ps_train := true |}. generalize (seq 0 (pc_forests c)). intros l. revert h e e'. clear H. induction l as [|i l IH]; intros h e e' t C E; cbn [foldM] in *.
    - apply ok_inv in E. apply pair_equal_spec in E. destruct E as [E <-]. apply pair_equal_spec in E. destruct E as [<- <-]. eauto.
    - apply rbind_ok in E. destruct E as [[[t1 h1'] e1'] [A E]]. destruct (draw (ps_gen t)) as [seed gen']. destruct (train_repro _ _ _ _ _ _ _ _ C A) as (e2 & B & C2). rewrite B. cbn [rbind]. eapply IH; eauto. }
  destruct X as (e0' & -> & C0). cbn [rbind]. apply rbind_ok in H. destruct H as [r [F H]]. rewrite F. cbn [rbind]. apply ok_inv in H. apply pair_equal_spec in H. destruct H as [H <-]. apply pair_equal_spec in H. destruct H as [H <-]. apply pair_equal_spec in H. destruct H as [<- <-]. eauto.
Qed.
Lemma perm_repro seed h e e' s e0 rows s1 h1 e1 : coming e e' -> perm_new P c seed e = Ok (s, e0) -> get_importance_array M P c s h e0 = Ok (rows, s1, h1, e1) ->
  exists e0' e1', perm_new P c seed e' = Ok (s, e0') /\ get_importance_array M P c s h e0' = Ok (rows, s1, h1, e1').
Proof.
  intros C H H2. unfold perm_new in *. apply rbind_ok in H. destruct H as [u [E H]]. rewrite E. cbn [rbind]. apply ok_pair_inv in H. destruct H as [<- <-].
  assert (C' : coming (set_seed P seed e) (set_seed P seed e')) by exact C. destruct (array_repro _ _ _ _ _ _ _ _ C' H2) as (e1' & G & _). eauto.
Qed.

(** ** Labels *)
Lemma array_labels s h e rows s1 h1 e1 : get_importance_array M P c s h e = Ok (rows, s1, h1, e1) -> forall r, r < length h -> nth_error h1 r = nth_error h r.
Proof.
  intros H. unfold get_importance_array in H. apply rbind_ok in H. destruct H as [[[s0 h0] e0] [E H]]. apply rbind_ok in H. destruct H as [rr [_ H]]. apply ok_inv in H. apply pair_equal_spec in H. destruct H as [H _]. apply pair_equal_spec in H. destruct H as [_ <-].
  unfold train_forests in E. revert E. generalize {| ps_gen := ps_gen s; ps_forests := ps_forests s; ps_train := true |}. generalize (seq 0 (pc_forests c)). intros l. revert h e. induction l as [|i l IH]; intros h e t E; cbn [foldM] in *.
  - apply ok_inv in E. apply pair_equal_spec in E. destruct E as [E _]. apply pair_equal_spec in E. destruct E as [_ <-]. auto.
  - apply rbind_ok in E. destruct E as [[[t1 h1'] e1'] [A E]]. destruct (draw (ps_gen t)) as [seed gen']. unfold train_forest in A. apply rbind_ok in A. destruct A as [[f0 d0] [A1 A]]. apply rbind_ok in A. destruct A as [[[f hh] ee] [A2 A]]. cbn [fst snd] in A2. apply ok_inv in A. apply pair_equal_spec in A. destruct A as [A _]. apply pair_equal_spec in A. destruct A as [_ <-].
    intros r L. assert (K : nth_error hh r = nth_error h r). { destruct (larr_dec (nth_error hh r) (nth_error h r)) as [Z|Z]; auto. exfalso. destruct (only_boosting _ _ _ _ _ _ _ _ _ _ A2 r L Z) as (B & _). discriminate B. }
    rewrite <- K. eapply IH; eauto. apply nth_error_Some. rewrite K. apply nth_error_Some. auto.
Qed.
Lemma untrained_vec s i h : ps_train s = false -> compute_importance_vec c s i h = Err AssertionError.
Proof. intros E. unfold compute_importance_vec. rewrite E. reflexivity. Qed.
End Life.

(** With the exhaustive search over bins that are not RANDOM and no feature subsampling nothing
    random is read while a tree grows: neither its seed nor any generator. *)
From Coq Require Import List Arith Bool ZArith QArith Qcanon Lia.
From Verif Require Import Base Num Rng Histogram Utils Criteria Solvers Tree Forest Spec SolverSpec TreeSpec GrowSpec ForestSpec NumFacts ListFacts TreeFacts TreeThms TreeTotal Repro ForestFacts ForestMore ForestTotal ForestRepro.
Import ListNotations.
Local Open Scope nat_scope.

Lemma new_hist_blind ic f uf fd cl nb mn mx ty np h np' q : ty <> RANDOM -> new_hist ic f uf fd cl nb mn mx ty np = Ok (h, np') -> new_hist ic f uf fd cl nb mn mx ty q = Ok (h, q).
Proof.
  intros T H. unfold new_hist in *. destruct ty; try congruence.
  - destruct (qeq mn mx); apply ok_pair_inv in H; destruct H as [<- _]; reflexivity.
  - apply rbind_ok in H. destruct H as [x [E H]]. rewrite E. cbn [rbind]. apply ok_pair_inv in H; destruct H as [<- _]; reflexivity.
Qed.
Definition mh_with (mh : mhstate) (q : tape) : mhstate := {| mh_nb := mh_nb mh; mh_np := q; mh_hists := mh_hists mh; mh_not := mh_not mh; mh_cons := mh_cons mh |}.
Lemma step_blind ic data cl mm dd bt B st f st' q : bt <> RANDOM -> mh_step ic data cl mm dd bt B st f = Ok st' -> mh_step ic data cl mm dd bt B (mh_with st q) f = Ok (mh_with st' q).
Proof.
  intros T H. unfold mh_step in *. cbn [mh_nb mh_with mh_np mh_hists mh_not mh_cons] in *.
  apply rbind_ok in H. destruct H as [fd [E1 H]]. rewrite E1. cbn [rbind]. apply rbind_ok in H. destruct H as [[D uf] [E2 H]]. rewrite E2. cbn [rbind]. cbv zeta in *. apply rbind_ok in H. destruct H as [[[nb mn] mx] [E3 H]]. rewrite E3. cbn [rbind].
  apply rbind_ok in H. destruct H as [[hh np'] [E H]]. apply new_hist_blind with (q := q) in E. 2:{ destruct bt; try congruence. unfold choose_bin_type. repeat match goal with |- (match ?x with _ => _ end) <> _ => destruct x end; discriminate. }
  rewrite E. cbn [rbind]. injection H as <-. reflexivity.
Qed.
Lemma make_blind ic data labels mm dd bt B np mh q : bt <> RANDOM -> make_histograms ic data labels mm dd bt B np = Ok mh -> make_histograms ic data labels mm dd bt B q = Ok (mh_with mh q).
Proof.
  intros T H. unfold make_histograms in *. apply rbind_ok in H. destruct H as [r0 [E H]]. rewrite E. cbn [rbind]. cbv zeta in *. revert H.
  generalize (seq 0 (length r0)) as l. change {| mh_nb := B; mh_np := q; mh_hists := []; mh_not := []; mh_cons := [] |} with (mh_with {| mh_nb := B; mh_np := np; mh_hists := []; mh_not := []; mh_cons := [] |} q).
  generalize {| mh_nb := B; mh_np := np; mh_hists := []; mh_not := []; mh_cons := [] |} as st. intros st l. revert st. induction l as [|f l IH]; intros st H; cbn [foldM] in *; [now injection H as <-|].
  apply rbind_ok in H. destruct H as [st1 [E1 H]]. rewrite (step_blind _ _ _ _ _ _ _ _ _ _ q T E1). cbn [rbind]. now apply IH.
Qed.

(** The same memory, other generators. *)
Definition same_memory (e e' : env) : Prop := e_mem e = e_mem e' /\ e_calls e = e_calls e'.
Lemma exact_blind M sc data labels mir e e' out e1 : s_bin sc <> RANDOM -> same_memory e e' -> solve_exactly M sc data labels mir e = Ok (out, e1) -> exists e1', solve_exactly M sc data labels mir e' = Ok (out, e1') /\ same_memory e1 e1'.
Proof.
  intros T [A B] H. unfold solve_exactly in *. cbn [alloc] in *. cbv zeta in *. cbn [e_np] in *. rewrite <- A, <- B.
  apply rbind_ok in H. destruct H as [r0 [E1 H]]. rewrite E1. cbn [rbind]. apply rbind_ok in H. destruct H as [mh [E2 H]]. rewrite (make_blind _ _ _ _ _ _ _ _ _ (e_np e') T E2). cbn [rbind mh_with mh_nb mh_np mh_hists mh_not mh_cons].
  apply rbind_ok in H. destruct H as [u [E3 H]]. rewrite E3. cbn [rbind].
  apply rbind_ok in H. destruct H as [acc [E4 H]]. rewrite E4. cbn [rbind]. apply rbind_ok in H. destruct H as [s [E5 H]]. rewrite E5. cbn [rbind]. apply rbind_ok in H. destruct H as [est [E6 H]]. rewrite E6. cbn [rbind].
  apply rbind_ok in H. destruct H as [best [E7 H]]. rewrite E7. cbn [rbind]. destruct best as [|b best]; [discriminate H|]. apply rbind_ok in H. destruct H as [r [E8 H]]. rewrite E8. cbn [rbind].
  apply ok_pair_inv in H. destruct H as [<- <-]. eexists. split; [reflexivity|]. split; cbn; congruence.
Qed.

(** Settings with which nothing random is read. *)
Definition reads_no_seed (c : tcfg) : Prop := tc_solver c = EXACT /\ tc_bin c <> RANDOM /\ tc_fsub c = FSNone.
Section Tree.
Context (M : math) (c : tcfg) (RN : reads_no_seed c).

Lemma solve_blind nd b e e' x e1 : same_memory e e' -> node_solve M c nd b e = Ok (x, e1) -> exists e1', node_solve M c nd b e' = Ok (x, e1') /\ same_memory e1 e1'.
Proof.
  destruct RN as (EX & BT & _). intros S H. unfold node_solve in *. cbv zeta in *. apply rbind_ok in H. destruct H as [d [E1 H]]. rewrite E1. cbn [rbind]. apply rbind_ok in H. destruct H as [l [E2 H]]. rewrite E2. cbn [rbind]. rewrite EX in *.
  apply rbind_ok in H. destruct H as [[r e2] [E3 H]]. eapply exact_blind in E3; [|exact BT|exact S]. destruct E3 as (e2' & E3' & S2). rewrite E3'. cbn [rbind fst snd] in *. apply ok_pair_inv in H. destruct H as [<- <-]. eauto.
Qed.
Lemma new_blind t p I d pr b e e' nd e1 : node_new c t p I d pr b e = Ok (nd, e1) -> node_new c t p I d pr b e' = Ok (nd, set_gen e' (e_gen e')) /\ same_memory e1 e.
Proof.
  destruct RN as (_ & _ & FS). intros H. unfold node_new in *. rewrite FS in *. cbn [choose_features rbind] in *.
  apply rbind_ok in H. destruct H as [u [E1 H]]. rewrite E1. cbn [rbind]. apply rbind_ok in H. destruct H as [dd [E2 H]]. rewrite E2. cbn [rbind].
  apply rbind_ok in H. destruct H as [ll [E3 H]]. rewrite E3. cbn [rbind]. apply rbind_ok in H. destruct H as [mm [E4 H]]. rewrite E4. cbn [rbind].
  apply rbind_ok in H. destruct H as [cs [E5 H]]. rewrite E5. cbn [rbind]. apply ok_pair_inv in H. destruct H as [<- <-]. split; [reflexivity|]. split; reflexivity.
Qed.
Lemma tree_new_blind P P' a e e' s t e1 : tree_new P c a e = Ok (t, e1) -> exists e1', tree_new P' c (with_seed a s (ta_dd a)) e' = Ok (t, e1') /\ same_memory e1 e /\ same_memory e1' e'.
Proof.
  intros H. unfold tree_new in *. cbn [with_seed ta_data ta_labels ta_seed ta_feats ta_idcs ta_dd ta_budget] in *. apply rbind_ok in H. destruct H as [u [E1 H]]. rewrite E1. cbn [rbind]. cbv zeta in *. apply rbind_ok in H. destruct H as [fs [E2 H]]. rewrite E2. cbn [rbind].
  apply rbind_ok in H. destruct H as [[nd e2] [E3 H]]. destruct (new_blind _ _ _ _ _ _ _ (set_gen (set_seed P' s e') (seed_gen P' s)) _ _ E3) as [E3' S]. rewrite E3'. cbn [rbind fst snd] in *. apply ok_pair_inv in H. destruct H as [<- <-]. eexists. split; [reflexivity|].
  split; [exact S|split; reflexivity].
Qed.

(** ** The same upcoming memory *)
Lemma new_coming t p I d pr b e e' nd e1 : coming e e' -> node_new c t p I d pr b e = Ok (nd, e1) -> exists e1', node_new c t p I d pr b e' = Ok (nd, e1') /\ coming e1 e1'.
Proof. intros C H. destruct (new_blind _ _ _ _ _ _ _ e' _ _ H) as [E [S1 S2]]. eexists. split; [exact E|]. intros k. rewrite S1, S2. apply C. Qed.
Lemma solve_coming nd b e e' x e1 : coming e e' -> node_solve M c nd b e = Ok (x, e1) -> exists e1', node_solve M c nd b e' = Ok (x, e1') /\ coming e1 e1'.
Proof.
  intros C H. set (e2 := set_gen (set_np (set_py e' (e_py e)) (e_np e)) (e_gen e)).
  destruct (solve_shift M c nd b e e2 x e1) as (e3 & E3 & R3); auto. { constructor; try reflexivity. exact C. }
  destruct (solve_blind nd b e2 e' x e3) as (e4 & E4 & S4); auto. { split; reflexivity. }
  exists e4. split; auto. intros k. rewrite (r1_mem _ _ R3 k). destruct S4 as [-> ->]. reflexivity.
Qed.
Lemma fit_coming t arg e e' t1 e1 : coming e e' -> tree_fit M c t arg e = Ok (t1, e1) -> exists e1', tree_fit M c t arg e' = Ok (t1, e1') /\ coming e1 e1'.
Proof.
  intros RR H. apply (fit_lock M c coming new_coming (fun _ => True) (fun _ _ => True)) with (e := e); auto; intros; apply lock_solve; intros; eapply solve_coming; eauto.
Qed.
Lemma tree_coming P P' a e e' s t e1 t1 e2 : coming e e' -> tree_new P c a e = Ok (t, e1) -> tree_fit M c t (None, None) e1 = Ok (t1, e2) ->
  exists e1' e2', tree_new P' c (with_seed a s (ta_dd a)) e' = Ok (t, e1') /\ tree_fit M c t (None, None) e1' = Ok (t1, e2') /\ coming e2 e2'.
Proof.
  intros C H1 H2. destruct (tree_new_blind P P' a e e' s t e1 H1) as (e1' & H1' & [S1 S2] & [S3 S4]).
  destruct (fit_coming t (None, None) e1 e1' t1 e2) as (e2' & H2' & C2); auto. { intros k. rewrite S1, S2, S3, S4. apply C. } eauto.
Qed.

(** ** Any memory *)
Context (a : targs) (W : nat) (TR : trainable c a W) (ST : memory_free c a).
Notation D := (ta_data a). Notation L := (ta_labels a).
Notation nok := (node_ok M c D L (train_feats a) (train_rows a)).
Definition anything (e e' : env) : Prop := True.
Lemma new_anything t p I d pr b e e' nd e1 : anything e e' -> node_new c t p I d pr b e = Ok (nd, e1) -> exists e1', node_new c t p I d pr b e' = Ok (nd, e1') /\ anything e1 e1'.
Proof. intros _ H. destruct (new_blind _ _ _ _ _ _ _ e' _ _ H) as [E _]. eexists. split; [exact E|exact Logic.I]. Qed.
Lemma solve_anything nd b e e' x e1 : nok nd -> dd_fine (nd_dd nd) -> eligible c L nd -> nd_left nd = None -> node_solve M c nd b e = Ok (x, e1) -> exists e1', node_solve M c nd b e' = Ok (x, e1') /\ anything e1 e1'.
Proof.
  intros N DF EG LF H. set (e2 := set_gen (set_np (set_py e' (e_py e)) (e_np e)) (e_gen e)).
  destruct (solve_steady M c a W TR ST nd b e e2 x e1 N DF EG LF) as (e3 & E3 & R3); auto. { repeat split. }
  destruct (solve_blind nd b e2 e' x e3) as (e4 & E4 & S4); auto. { split; reflexivity. }
  exists e4. split; auto. exact Logic.I.
Qed.
Lemma loop_anything fuel t e e' t1 e1 : SG M c a t -> anything e e' -> fit_loop M c fuel t e = Ok (t1, e1) -> exists e1', fit_loop M c fuel t e' = Ok (t1, e1') /\ anything e1 e1'.
Proof.
  apply (loop_lock M c anything new_anything (SG M c a) (SS M c a)).
  - intros t0 e0 [T F]. split; auto. constructor; cbn; auto.
  - intros t0 s pos id s' [S F] P H. split; [eapply scan_leaf_ok; eauto|eapply scan_q_fine; eauto].
  - intros t0 s pos id nd [[T EL ES EN B] [F1 F2]] P A CC. assert (I : In id (t_leaves (sc_tree s))) by (rewrite EL; eapply nth_error_In; eauto).
    apply (ti_leaves _ _ _ _ _ _ _ _ T) in I. destruct I as [nd' [A' LF]]. unfold node_at in A'. assert (nd' = nd) by congruence. subst nd'.
    pose proof (ti_node _ _ _ _ _ _ _ _ T _ _ A) as N. apply lock_solve. intros e2 e2' x e3 RR H. eapply solve_anything; eauto.
    + rewrite Forall_forall in F2. apply F2. eapply nth_error_In; eauto.
    + eapply constraints_eligible; eauto.
  - intros t0 s pos id x nd [[T EL ES EN B] _] SB A SF. rewrite SB in B. destruct B as [_ [nd' [A' [_ [_ [RX _]]]]]]. unfold node_at in A'. assert (nd' = nd) by congruence. subst nd'.
    rewrite (no_nosplit _ _ _ _ _ _ _ (ti_node _ _ _ _ _ _ _ _ T _ _ A) SF) in RX. discriminate RX.
  - intros t0 e0 t' e0' b [T F] H. split; [eapply fit_step_tinv; eauto|eapply fine_step; eauto].
Qed.
Lemma fit_anything P e0 t0 e e' e2 t1 e1 : tree_new P c a e0 = Ok (t0, e2) -> anything e e' -> tree_fit M c t0 (None, None) e = Ok (t1, e1) -> exists e1', tree_fit M c t0 (None, None) e' = Ok (t1, e1') /\ anything e1 e1'.
Proof.
  intros EN RR H. destruct (new_spec _ _ _ _ _ _ EN) as (nd & e3 & ENN & ET & EE).
  assert (RD : nd_dd nd = ta_dd a).
  { unfold node_new in ENN. apply rbind_ok in ENN. destruct ENN as [[fs g] [_ K]]. apply rbind_ok in K. destruct K as [_ [_ K]]. apply rbind_ok in K. destruct K as [dd [_ K]].
    apply rbind_ok in K. destruct K as [ll [_ K]]. apply rbind_ok in K. destruct K as [mm [_ K]]. apply rbind_ok in K. destruct K as [cs [_ K]]. apply ok_pair_inv in K. destruct K as [<- _]. reflexivity. }
  assert (SGT : forall d, dd_fine d -> SG M c a (start_tree t0 d)).
  { intros d DF. split; [apply (start_inv M P c a e0 t0 e2 d EN (tr_rows _ _ _ TR))|]. split; [exact DF|]. rewrite ET. cbn. constructor; auto. rewrite RD. apply (tr_dd _ _ _ TR). }
  unfold tree_fit in *. cbn [rbind] in *. rewrite (tr_splitter _ _ _ TR) in *. apply rbind_ok in H. destruct H as [tb [E2 H]]. rewrite E2. cbn [rbind]. eapply loop_anything; [|exact RR|exact H].
  assert (TD : t_data t0 = D) by (rewrite ET; reflexivity).
  destruct (match tc_bin c with LINEAR | IDENTITY => false | _ => tc_make_discrete c end).
  - destruct (TreeTotal.discrete_total c a W TR) as (d & E3 & E4). rewrite TD, E3 in E2. cbn [rbind] in E2. assert (E := f_equal (fun r => match r with Ok x => x | Err _ => tb end) E2). cbn in E. subst tb.
    replace (set_leaves _ _) with (start_tree t0 (Some d)); [apply SGT; exact E4|]. rewrite ET. reflexivity.
  - assert (E := f_equal (fun r => match r with Ok x => x | Err _ => tb end) E2). cbn in E. subst tb.
    replace (set_leaves _ _) with (start_tree t0 (ta_dd a)); [apply SGT; apply (tr_dd _ _ _ TR)|]. rewrite ET. reflexivity.
Qed.


Lemma tree_anything P P' e e' s t e1 t1 e2 : tree_new P c a e = Ok (t, e1) -> tree_fit M c t (None, None) e1 = Ok (t1, e2) ->
  exists e1' e2', tree_new P' c (with_seed a s (ta_dd a)) e' = Ok (t, e1') /\ tree_fit M c t (None, None) e1' = Ok (t1, e2').
Proof.
  intros H1 H2. destruct (tree_new_blind P P' a e e' s t e1 H1) as (e1' & H1' & _).
  destruct (fit_anything P e t e1 e1' e1 t1 e2 H1 Logic.I H2) as (e2' & H2' & _). eauto.
Qed.
End Tree.

Theorem tree_reads_no_seed P P' M c a e e' s t : reads_no_seed c -> coming e e' -> built P M c a e t -> built P' M c (with_seed a s (ta_dd a)) e' t.
Proof. intros RN C (t0 & e0 & e1 & H1 & H2). destruct (tree_coming M c RN P P' a e e' s _ _ _ _ C H1 H2) as (e0' & e1' & H1' & H2' & _). exists t0, e0', e1'. auto. Qed.
Theorem tree_reads_nothing P P' M c a W e e' s t : reads_no_seed c -> trainable c a W -> memory_free c a -> built P M c a e t -> built P' M c (with_seed a s (ta_dd a)) e' t.
Proof. intros RN TR ST (t0 & e0 & e1 & H1 & H2). destruct (tree_anything M c RN a W TR ST P P' e e' s _ _ _ _ H1 H2) as (e0' & e1' & H1' & H2'). exists t0, e0', e1'. auto. Qed.

(** ** Forests *)
Section Lock.
Context (M : math) (P P' : prng) (c : fcfg) (data : list (list Qc)) (F : nat) (K : env -> env -> Prop) (Rdy : fstate -> Prop) (Good : tcfg -> targs -> Prop).
Hypothesis Knp : forall e e' t t', K e e' -> K (set_np e t) (set_np e' t').
Hypothesis TREE : forall tc a e e' s t e1 t1 e2, Good tc a -> K e e' -> tree_new P tc a e = Ok (t, e1) -> tree_fit M tc t (None, None) e1 = Ok (t1, e2) ->
  exists e1' e2', tree_new P' tc (with_seed a s (ta_dd a)) e' = Ok (t, e1') /\ tree_fit M tc t (None, None) e1' = Ok (t1, e2') /\ K e2 e2'.
Hypothesis GOOD : forall s rows feats gen1 rows2 gen2 orgr newr la seed, Rdy s -> subset_draw c (length data) F (f_gen (fs_f s)) = Ok (rows, feats, gen1) ->
  f_org (fs_f s) = Some orgr -> f_new (fs_f s) = Some newr ->
  (if fc_bootstrap c then choice_repl rows (length data) gen1 else Ok (rows, gen1)) = Ok (rows2, gen2) ->
  nth_res (fs_h s) (if fc_class c then orgr else if fc_boosting c then newr else orgr) = Ok la ->
  Good (tree_cfg c (f_classes (fs_f s)) (f_minmax (fs_f s))) {| ta_data := data; ta_labels := la_vals la; ta_budget := f_budget (fs_f s); ta_dd := f_dd (fs_f s); ta_seed := seed; ta_idcs := Some rows2; ta_feats := Some feats |}.
Hypothesis KEEP : forall s i s', Rdy s -> fit_tree M P c data F s i = Ok s' -> Rdy s'.

Record bsim (s s' : fstate) : Prop := { bm_f : fs_f s = fs_f s'; bm_h : fs_h s = fs_h s'; bm_stop : fs_stop s = fs_stop s'; bm_k : K (fs_e s) (fs_e s') }.

Lemma fit_tree_blind s s' i s1 : bsim s s' -> Rdy s -> fit_tree M P c data F s i = Ok s1 -> exists s1', fit_tree M P' c data F s' i = Ok s1' /\ bsim s1 s1'.
Proof.
  intros [F1 F2 F3 F5] RD H. unfold fit_tree in *. rewrite <- F3, <- F1, <- F2. destruct (fs_stop s) eqn:ST; [apply ok_inv in H; subst s1; exists s'; split; auto; constructor; congruence|].
  apply rbind_ok in H. destruct H as [[[rows feats] gen1] [E1 H]]. rewrite E1. cbn [rbind].
  destruct (match f_budget (fs_f s) with Some b => (b <=? 0)%Z | None => false end).
  { apply ok_inv in H. subst s1. eexists. split; [reflexivity|]. constructor; auto. }
  apply rbind_ok in H. destruct H as [orgr [E2 H]]. rewrite E2. cbn [rbind]. apply rbind_ok in H. destruct H as [newr [E3 H]]. rewrite E3. cbn [rbind].
  apply rbind_ok in H. destruct H as [[rows2 gen2] [E4 H]]. rewrite E4. cbn [rbind]. destruct (draw (e_np (fs_e s))) as [seed np'] eqn:ED. destruct (draw (e_np (fs_e s'))) as [seed' np2] eqn:ED'.
  apply rbind_ok in H. destruct H as [la [E5 H]]. rewrite E5. cbn [rbind]. cbv zeta in *.
  apply rbind_ok in H. destruct H as [[t e1] [E6 H]]. cbn [fst snd] in H. apply rbind_ok in H. destruct H as [[t1 e2] [E7 H]].
  apply opt_res_ok in E2. apply opt_res_ok in E3. pose proof (GOOD s rows feats gen1 rows2 gen2 orgr newr la seed RD E1 E2 E3 E4 E5) as GD.
  destruct (TREE _ _ _ _ seed' _ _ _ _ GD (Knp _ _ np' np2 F5) E6 E7) as (e1' & e2' & E6' & E7' & K2). unfold with_seed in E6'; cbn [ta_data ta_labels ta_seed ta_feats ta_idcs ta_dd ta_budget] in E6'. rewrite E6'. cbn [rbind fst snd]. rewrite E7'. cbn [rbind].
  destruct (negb (keep_tree (f_budget (fs_f s)) (t_queries t1))).
  { apply ok_inv in H. subst s1. eexists. split; [reflexivity|]. constructor; auto. }
  apply rbind_ok in H. destruct H as [[t2 h2] [E8 H]]. rewrite E8. cbn [rbind]. apply rbind_ok in H. destruct H as [u [E9 H]]. rewrite E9. cbn [rbind].
  apply ok_inv in H. subst s1. eexists. split; [reflexivity|]. constructor; auto.
Qed.
Lemma trees_blind l : forall s s' s1, bsim s s' -> Rdy s -> foldM (fit_tree M P c data F) s l = Ok s1 -> exists s1', foldM (fit_tree M P' c data F) s' l = Ok s1' /\ bsim s1 s1'.
Proof.
  induction l as [|i l IH]; intros s s' s1 S RD H; cbn [foldM] in *; [apply ok_inv in H; subst s1; eauto|].
  apply rbind_ok in H. destruct H as [s2 [E H]]. destruct (fit_tree_blind _ _ _ _ S RD E) as (s2' & E' & S2). rewrite E'. cbn [rbind]. apply (IH s2); auto. now apply (KEEP s i).
Qed.
End Lock.

Definition forest_reads_no_seed (c : fcfg) : Prop := fc_solver c = EXACT /\ fc_bin c <> RANDOM /\ fc_fsub c = FSNone.
Theorem fit_reads_no_seed M P P' c f arg h e e' f1 h1 e1 : forest_reads_no_seed c -> coming e e' -> forest_fit M P c f arg h e = Ok (f1, h1, e1) ->
  exists e1', forest_fit M P' c f arg h e' = Ok (f1, h1, e1') /\ coming e1 e1'.
Proof.
  intros RN C H. unfold forest_fit in *. apply rbind_ok in H. destruct H as [[[od org] new] [E1 H]]. rewrite E1. cbn [rbind]. apply rbind_ok in H. destruct H as [data [E2 H]]. rewrite E2. cbn [rbind].
  apply rbind_ok in H. destruct H as [r0 [E3 H]]. rewrite E3. cbn [rbind]. apply rbind_ok in H. destruct H as [[[o n] hh] [E4 H]]. cbv zeta in *. rewrite E4. cbn [rbind].
  apply rbind_ok in H. destruct H as [dd [E5 H]]. rewrite E5. cbn [rbind]. apply rbind_ok in H. destruct H as [mm [E6 H]]. rewrite E6. cbn [rbind].
  apply rbind_ok in H. destruct H as [s [E7 H]].
  destruct (trees_blind M P P' c data (length r0) coming (fun _ => True) (fun tc _ => reads_no_seed tc)) with (l := seq 0 (fc_n c)) (7 := E7) (s' := {| fs_f := {| f_data := Some data; f_org := o; f_new := n; f_trees := []; f_classes := f_classes f; f_ncl := f_ncl f; f_dd := dd; f_minmax := mm;
     f_budget := f_budget f; f_queries := f_queries f; f_oob := if fc_oob c then [] else f_oob f; f_mdg := f_mdg f; f_gen := f_gen f |}; fs_e := e'; fs_h := hh; fs_stop := false |}) as (s' & E7' & [S1 S2 S3 S5]); auto.
  - intros tc a e2 e2' s0 t e3 t1 e4 G CM N1 N2. exact (tree_coming M tc G P P' a e2 e2' s0 _ _ _ _ CM N1 N2).
  - constructor; auto.
  - rewrite E7'. cbn [rbind]. apply ok_inv in H. apply pair_equal_spec in H. destruct H as [H <-]. apply pair_equal_spec in H. destruct H as [<- <-]. rewrite S1, S2. eauto.
Qed.
Theorem fit_reads_nothing M P P' c f arg h e e' f' h' e1 data W la : forest_reads_no_seed c -> forest_trainable c f arg h data W -> (exists r, fit_ref f arg = Some r /\ nth_error h r = Some la) ->
  forest_bins c data (if fc_class c then map trunc (la_vals la) else la_vals la) W 2 ->
  forest_fit M P c f arg h e = Ok (f', h', e1) -> exists e1', forest_fit M P' c f arg h e' = Ok (f', h', e1').
Proof.
  intros RN T R FBN H. destruct (forest_setup c f arg h data W la 2 T R) as (f1 & h1 & org & new & SU). pose proof SU as [S1 S2 S3 S4 S5 S6 _]. rewrite S1 in *.
  apply rbind_ok in H. destruct H as [s [E H]].
  destruct (trees_blind M P P' c data W (fun _ _ => True) (ready c data f1 h1 new) (fgood c data W 2 f1 (if fc_class c then map trunc (la_vals la) else la_vals la))) with (l := seq 0 (fc_n c)) (7 := E) (s' := {| fs_f := f1; fs_e := e'; fs_h := h1; fs_stop := false |}) as (s' & E' & [Q1 Q2 Q3 Q5]); auto.
  - intros tc a e2 e2' s0 t e3 t1 e4 (TC & TR & EB) _ N1 N2. specialize (EB FBN). assert (G : reads_no_seed tc) by (subst tc; exact RN). assert (ST : memory_free tc a) by (left; split; auto; apply G).
    destruct (tree_anything M tc G a W TR ST P P' e2 e2' s0 _ _ _ _ N1 N2) as (e3' & e4' & N1' & N2'). exists e3', e4'. auto.
  - intros. refine (ready_good c data W 2 f arg h f1 h1 org new _ _ _ _ _ SU s0 rows feats gen1 rows2 gen2 orgr newr la0 seed _ _ _ _ _ _); auto; [exact (ft_rows _ _ _ _ _ _ T)|exact (ft_cols _ _ _ _ _ _ T)|exact (ft_boost _ _ _ _ _ _ T)|exact (ft_draws _ _ _ _ _ _ T)].
  - intros. eapply ready_step; eauto. exact (ft_boost _ _ _ _ _ _ T).
  - constructor; auto.
  - split; [|split; [|split]]; auto. cbn [fs_f]. exists (f_trees f1), (f_budget f1), (f_queries f1), (f_oob f1), (f_gen f1). now destruct f1.
  - rewrite E'. cbn [rbind]. apply ok_inv in H. apply pair_equal_spec in H. destruct H as [H <-]. apply pair_equal_spec in H. destruct H as [<- <-]. rewrite Q1, Q2. eauto.
Qed.

(** Two runs of a forest that start from the same random state. *)
From Coq Require Import List Arith Bool ZArith QArith Qcanon Lia Permutation.
From Verif Require Import Base Num Rng Histogram Utils Criteria Solvers Tree Forest Spec SolverSpec TreeSpec ForestSpec NumFacts ListFacts TreeFacts TreeThms TreeTotal Repro ForestFacts ForestMore ForestTotal.
Import ListNotations.
Local Open Scope nat_scope.

Section Lock.
Context (M : math) (P : prng) (c : fcfg) (data : list (list Qc)) (F : nat) (K : env -> env -> Prop) (Rdy : fstate -> Prop) (Good : tcfg -> targs -> Prop).
Hypothesis Knp : forall e e' t, K e e' -> K (set_np e t) (set_np e' t).
Hypothesis TREE : forall tc a e e' t e1 t1 e2, Good tc a -> K e e' -> tree_new P tc a e = Ok (t, e1) -> tree_fit M tc t (None, None) e1 = Ok (t1, e2) ->
  exists e1' e2', tree_new P tc a e' = Ok (t, e1') /\ tree_fit M tc t (None, None) e1' = Ok (t1, e2') /\ e_np e2 = e_np e2' /\ K e2 e2'.
Hypothesis GOOD : forall s rows feats gen1 rows2 gen2 orgr newr la seed, Rdy s -> subset_draw c (length data) F (f_gen (fs_f s)) = Ok (rows, feats, gen1) ->
  f_org (fs_f s) = Some orgr -> f_new (fs_f s) = Some newr ->
  (if fc_bootstrap c then choice_repl rows (length data) gen1 else Ok (rows, gen1)) = Ok (rows2, gen2) ->
  nth_res (fs_h s) (if fc_class c then orgr else if fc_boosting c then newr else orgr) = Ok la ->
  Good (tree_cfg c (f_classes (fs_f s)) (f_minmax (fs_f s))) {| ta_data := data; ta_labels := la_vals la; ta_budget := f_budget (fs_f s); ta_dd := f_dd (fs_f s); ta_seed := seed; ta_idcs := Some rows2; ta_feats := Some feats |}.
Hypothesis KEEP : forall s i s', Rdy s -> fit_tree M P c data F s i = Ok s' -> Rdy s'.

Record fsim (s s' : fstate) : Prop := { fm_f : fs_f s = fs_f s'; fm_h : fs_h s = fs_h s'; fm_stop : fs_stop s = fs_stop s'; fm_np : e_np (fs_e s) = e_np (fs_e s'); fm_k : K (fs_e s) (fs_e s') }.

Lemma ok_inv {A} (x y : A) : Ok x = Ok y -> x = y. Proof. congruence. Qed.

Lemma fit_tree_lock s s' i s1 : fsim s s' -> Rdy s -> fit_tree M P c data F s i = Ok s1 -> exists s1', fit_tree M P c data F s' i = Ok s1' /\ fsim s1 s1'.
Proof.
  intros [F1 F2 F3 F4 F5] RD H. unfold fit_tree in *. rewrite <- F3, <- F1, <- F2, <- F4. destruct (fs_stop s) eqn:ST; [apply ok_inv in H; subst s1; exists s'; split; auto; constructor; congruence|].
  apply rbind_ok in H. destruct H as [[[rows feats] gen1] [E1 H]]. rewrite E1. cbn [rbind].
  destruct (match f_budget (fs_f s) with Some b => (b <=? 0)%Z | None => false end).
  { apply ok_inv in H. subst s1. eexists. split; [reflexivity|]. constructor; auto. }
  apply rbind_ok in H. destruct H as [orgr [E2 H]]. rewrite E2. cbn [rbind]. apply rbind_ok in H. destruct H as [newr [E3 H]]. rewrite E3. cbn [rbind].
  apply rbind_ok in H. destruct H as [[rows2 gen2] [E4 H]]. rewrite E4. cbn [rbind]. destruct (draw (e_np (fs_e s))) as [seed np'] eqn:ED.
  apply rbind_ok in H. destruct H as [la [E5 H]]. rewrite E5. cbn [rbind]. cbv zeta in *.
  apply rbind_ok in H. destruct H as [[t e1] [E6 H]]. cbn [fst snd] in H. apply rbind_ok in H. destruct H as [[t1 e2] [E7 H]].
  apply opt_res_ok in E2. apply opt_res_ok in E3. pose proof (GOOD s rows feats gen1 rows2 gen2 orgr newr la seed RD E1 E2 E3 E4 E5) as GD.
  destruct (TREE _ _ _ _ _ _ _ _ GD (Knp _ _ np' F5) E6 E7) as (e1' & e2' & E6' & E7' & N2 & K2). rewrite E6'. cbn [rbind fst snd]. rewrite E7'. cbn [rbind].
  destruct (negb (keep_tree (f_budget (fs_f s)) (t_queries t1))).
  { apply ok_inv in H. subst s1. eexists. split; [reflexivity|]. constructor; auto. }
  apply rbind_ok in H. destruct H as [[t2 h2] [E8 H]]. rewrite E8. cbn [rbind]. apply rbind_ok in H. destruct H as [u [E9 H]]. rewrite E9. cbn [rbind].
  apply ok_inv in H. subst s1. eexists. split; [reflexivity|]. constructor; auto.
Qed.

Lemma trees_lock l : forall s s' s1, fsim s s' -> Rdy s -> foldM (fit_tree M P c data F) s l = Ok s1 -> exists s1', foldM (fit_tree M P c data F) s' l = Ok s1' /\ fsim s1 s1'.
Proof.
  induction l as [|i l IH]; intros s s' s1 S RD H; cbn [foldM] in *; [apply ok_inv in H; subst s1; eauto|].
  apply rbind_ok in H. destruct H as [s2 [E H]]. destruct (fit_tree_lock _ _ _ _ S RD E) as (s2' & E' & S2). rewrite E'. cbn [rbind]. apply (IH s2); auto. now apply (KEEP s i).
Qed.
End Lock.

(** ** The same upcoming memory *)
Lemma fit_reproducible M P c f arg h e e' f1 h1 e1 : e_np e = e_np e' -> coming e e' -> forest_fit M P c f arg h e = Ok (f1, h1, e1) ->
  exists e1', forest_fit M P c f arg h e' = Ok (f1, h1, e1') /\ e_np e1 = e_np e1' /\ coming e1 e1'.
Proof.
  intros NP C H. unfold forest_fit in *. apply rbind_ok in H. destruct H as [[[od org] new] [E1 H]]. rewrite E1. cbn [rbind]. apply rbind_ok in H. destruct H as [data [E2 H]]. rewrite E2. cbn [rbind].
  apply rbind_ok in H. destruct H as [r0 [E3 H]]. rewrite E3. cbn [rbind]. apply rbind_ok in H. destruct H as [[[o n] hh] [E4 H]]. cbv zeta in *. rewrite E4. cbn [rbind].
  apply rbind_ok in H. destruct H as [dd [E5 H]]. rewrite E5. cbn [rbind]. apply rbind_ok in H. destruct H as [mm [E6 H]]. rewrite E6. cbn [rbind].
  apply rbind_ok in H. destruct H as [s [E7 H]].
  destruct (trees_lock M P c data (length r0) coming (fun _ => True) (fun _ _ => True)) with (l := seq 0 (fc_n c)) (7 := E7) (s' := {| fs_f := {| f_data := Some data; f_org := o; f_new := n; f_trees := []; f_classes := f_classes f; f_ncl := f_ncl f; f_dd := dd; f_minmax := mm;
     f_budget := f_budget f; f_queries := f_queries f; f_oob := if fc_oob c then [] else f_oob f; f_mdg := f_mdg f; f_gen := f_gen f |}; fs_e := e'; fs_h := hh; fs_stop := false |}) as (s' & E7' & [S1 S2 S3 S4 S5]); auto.
  - intros tc a e2 e2' t e3 t1 e4 _ CM N1 N2.
    destruct (tree_new_lock P tc a R1 e2 e2' t e3 (fun e e' R => r1_gen e e' R) R1_set (seeded _ _ _ _ CM) N1) as (e0' & H1' & R0). destruct (fit_shift _ _ _ _ _ _ _ _ R0 N2) as (e1' & H2' & [A B D G]).
    exists e0', e1'. auto.
  - constructor; auto.
  - rewrite E7'. cbn [rbind]. apply ok_inv in H. apply pair_equal_spec in H. destruct H as [H <-]. apply pair_equal_spec in H. destruct H as [<- <-]. rewrite S1, S2. eauto.
Qed.

(** Construction seeds everything that fit reads, except the memory. *)
Lemma new_np P c data labels classes budget h e f e1 : forest_new P c data labels classes budget h e = Ok (f, e1) ->
  e1 = set_seed P (fc_seed c) e /\ forall e', forest_new P c data labels classes budget h e' = Ok (f, set_seed P (fc_seed c) e').
Proof.
  intros H. unfold forest_new in *. apply rbind_ok in H. destruct H as [cls [E1 H]]. apply rbind_ok in H. destruct H as [u1 [E2 H]]. apply rbind_ok in H. destruct H as [u2 [E3 H]]. apply rbind_ok in H. destruct H as [u3 [E4 H]].
  apply ok_pair_inv in H. destruct H as [<- <-]. split; auto. intros e'. rewrite E1. cbn [rbind]. rewrite E2. cbn [rbind]. rewrite E3. cbn [rbind]. rewrite E4. reflexivity.
Qed.
Lemma forest_reproducible M P c data labels classes budget h e e' f e1 arg f1 h1 e2 : coming e e' ->
  forest_new P c data labels classes budget h e = Ok (f, e1) -> forest_fit M P c f arg h e1 = Ok (f1, h1, e2) ->
  exists e1' e2', forest_new P c data labels classes budget h e' = Ok (f, e1') /\ forest_fit M P c f arg h e1' = Ok (f1, h1, e2').
Proof.
  intros C H1 H2. destruct (new_np _ _ _ _ _ _ _ _ _ _ H1) as [-> N]. destruct (fit_reproducible M P c f arg h (set_seed P (fc_seed c) e) (set_seed P (fc_seed c) e') f1 h1 e2) with (3 := H2) as (e2' & E & _); auto.
  eauto.
Qed.

(** ** Any memory *)
Section Steady.
Context (M : math) (P : prng) (c : fcfg) (data : list (list Qc)) (W m : nat) (f0 : forest) (arg : option (list (list Qc)) * option nat) (h0 : heap) (f1 : forest) (h1 : heap) (org new : nat) (L : list Qc).
Context (NP : 1 <= length data) (WP : 1 <= W) (FB : fc_boosting c = true -> fc_class c = false /\ fc_lr c <> None).
Context (DR : qlt (fc_alpha_N c) 1%Qc || qlt (fc_alpha_F c) 1%Qc = true -> (1 <= ztrunc (Nq (length data) * fc_alpha_N c)%Qc <= Z.of_nat (length data))%Z /\ (1 <= ztrunc (Nq W * fc_alpha_F c)%Qc <= Z.of_nat W)%Z).
Context (SU : fit_setup c f0 arg h0 data W m f1 h1 org new L).
Notation rdy := (ready c data f1 h1 new).

Lemma boost_length i tc t0 rows newr h t h' la : boost c i tc t0 data rows newr h = Ok (t, h') -> nth_error h newr = Some la -> exists la', nth_error h' newr = Some la' /\ length (la_vals la') = length (la_vals la).
Proof.
  unfold boost. intros H HA. repeat (apply rbind_ok in H; let x := fresh in let E := fresh "E" in destruct H as [x [E H]]). apply ok_pair_inv in H. destruct H as [_ <-].
  match goal with E : store _ _ _ _ = Ok _ |- _ => revert E end. unfold store, nth_res. rewrite HA. cbn [rbind]. intros S. apply rbind_ok in S. destruct S as [u [_ S]]. apply ok_inv in S. rewrite <- S.
  eexists. split; [rewrite set_nth_nth, Nat.eqb_refl, HA; reflexivity|]. cbn [la_vals].
  match goal with |- length (fold_left _ ?l _) = _ => generalize l end. generalize (la_vals la). intros l0 ivs. revert l0. induction ivs as [|iv ivs IH]; intros l0; cbn [fold_left]; auto. rewrite IH. apply set_nth_length.
Qed.

Lemma ready_step s i s' : rdy s -> fit_tree M P c data W s i = Ok s' -> rdy s'.
Proof.
  intros RD H. pose proof RD as ((ts & b & q & o & g & FR) & HH & (lb & HB & LB) & HL). unfold fit_tree in H. destruct (fs_stop s) eqn:ST; [apply ok_inv in H; now subst s'|].
  assert (UPD : forall ts' b' q' o' g' , exists ts b q o g, upd_forest (fs_f s) ts' b' q' o' g' = upd_forest f1 ts b q o g) by (intros; rewrite FR; do 5 eexists; reflexivity).
  apply rbind_ok in H. destruct H as [[[rows feats] gen1] [E1 H]].
  destruct (match f_budget (fs_f s) with Some b => (b <=? 0)%Z | None => false end).
  { apply ok_inv in H. subst s'. split; [apply UPD|]. cbn [fs_h]. split; auto. split; eauto. }
  apply rbind_ok in H. destruct H as [orgr [E2 H]]. apply rbind_ok in H. destruct H as [newr [E3 H]].
  apply rbind_ok in H. destruct H as [[rows2 gen2] [E4 H]]. destruct (draw (e_np (fs_e s))) as [seed np'] eqn:ED.
  apply rbind_ok in H. destruct H as [la [E5 H]]. cbv zeta in *.
  apply rbind_ok in H. destruct H as [[t e1] [E6 H]]. apply rbind_ok in H. destruct H as [[t1 e2] [E7 H]].
  destruct (negb (keep_tree (f_budget (fs_f s)) (t_queries t1))).
  { apply ok_inv in H. subst s'. split; [apply UPD|]. cbn [fs_h]. split; auto. split; eauto. }
  apply rbind_ok in H. destruct H as [[t2 h2] [E8 H]]. apply rbind_ok in H. destruct H as [u [E9 H]]. apply ok_inv in H. subst s'. split; [apply UPD|]. cbn [fs_h].
  apply opt_res_ok in E3. assert (FN : f_new (fs_f s) = Some new) by (rewrite FR; exact (su_new _ _ _ _ _ _ _ _ _ _ _ _ SU)). assert (newr = new) by congruence. subst newr.
  destruct (fc_boosting c) eqn:BO.
  - split; [intros Q; discriminate Q|]. destruct (boost_length _ _ _ _ _ _ _ _ _ E8 HB) as (la' & L1 & L2). split; [exists la'; split; auto; congruence|]. intros _. destruct (boost_frame _ _ _ _ _ _ _ _ _ _ E8) as [-> _]. auto.
  - apply ok_pair_inv in E8. destruct E8 as [_ <-]. split; auto. split; eauto.
Qed.

Definition fgood (tc : tcfg) (a : targs) : Prop := tc = tree_cfg c (f_classes f1) (f_minmax f1) /\ trainable tc a W /\ (forest_bins c data L W m -> enough_bins tc a m).

Lemma ready_good s rows feats gen1 rows2 gen2 orgr newr la seed : rdy s -> subset_draw c (length data) W (f_gen (fs_f s)) = Ok (rows, feats, gen1) ->
  f_org (fs_f s) = Some orgr -> f_new (fs_f s) = Some newr ->
  (if fc_bootstrap c then choice_repl rows (length data) gen1 else Ok (rows, gen1)) = Ok (rows2, gen2) ->
  nth_res (fs_h s) (if fc_class c then orgr else if fc_boosting c then newr else orgr) = Ok la ->
  fgood (tree_cfg c (f_classes (fs_f s)) (f_minmax (fs_f s))) {| ta_data := data; ta_labels := la_vals la; ta_budget := f_budget (fs_f s); ta_dd := f_dd (fs_f s); ta_seed := seed; ta_idcs := Some rows2; ta_feats := Some feats |}.
Proof.
  intros ((ts & b & q & o & g & FR) & HH & (lb & HB & LB) & HL) ED E2 E3 EB E5.
  assert (TC : tree_cfg c (f_classes (fs_f s)) (f_minmax (fs_f s)) = tree_cfg c (f_classes f1) (f_minmax f1)) by (rewrite FR; reflexivity). split; auto.
  set (a := {| ta_data := data; ta_labels := la_vals la; ta_budget := f_budget (fs_f s); ta_dd := f_dd (fs_f s); ta_seed := seed; ta_idcs := Some rows2; ta_feats := Some feats |}).
  assert (FO : orgr = org) by (pose proof (su_org _ _ _ _ _ _ _ _ _ _ _ _ SU) as Q; rewrite FR in E2; cbn in E2; congruence). assert (FN : newr = new) by (pose proof (su_new _ _ _ _ _ _ _ _ _ _ _ _ SU) as Q; rewrite FR in E3; cbn in E3; congruence). subst orgr newr.
  destruct (subset_total c (length data) W (f_gen (fs_f s)) NP WP DR) as (rows' & feats' & gen1' & ED' & NR & LF & NF). rewrite ED in ED'. apply ok_pair_inv in ED'. destruct ED' as [ED' <-]. apply pair_equal_spec in ED'. destruct ED' as [<- <-].
  destruct (subset_draw_spec _ _ _ _ _ _ _ ED) as [D1 [D2 [D3 D4]]].
  assert (R : (forall i, In i rows2 -> In i rows) /\ (fc_bootstrap c = true -> length rows2 = length data) /\ (fc_bootstrap c = false -> rows2 = rows)).
  { destruct (fc_bootstrap c).
    - apply choice_repl_in in EB. destruct EB as [B1 B2]. split; auto. split; auto. discriminate.
    - apply ok_pair_inv in EB. destruct EB as [<- _]. split; auto. split; auto. discriminate. }
  destruct R as [R1 [R2 R3]].
  assert (NE : train_rows a <> []).
  { cbn. destruct (fc_bootstrap c) eqn:BS; [|now rewrite R3]. specialize (R2 eq_refl). intros ->. cbn in R2. lia. }
  assert (AO : args_ok c data W (f_dd f1) a).
  { constructor; auto.
    - cbn. rewrite FR. reflexivity.
    - intros [A1 [A2 A3]]. cbn. rewrite (R3 A1). now apply D4. }
  apply nth_res_ok in E5. assert (LA : labels_fit c data h1 org la).
  { destruct (su_org_at _ _ _ _ _ _ _ _ _ _ _ _ SU) as (la0 & A1 & A2). destruct (fc_boosting c) eqn:BO.
    - destruct (FB eq_refl) as [IC _]. rewrite IC in E5. assert (la = lb) by congruence. subst la. split; auto. intros Q; congruence.
    - rewrite (HH eq_refl) in E5. assert (la0 = la) by (destruct (fc_class c); congruence). subst la0. split; auto. }
  rewrite TC. apply (su_tree _ _ _ _ _ _ _ _ _ _ _ _ SU la a LA eq_refl AO LF NF NE (fun A B => proj2 (D4 A B))).
Qed.
End Steady.

Lemma fit_any_memory M P c f arg h e e' f' h' e1 data W la m : forest_trainable c f arg h data W -> (exists r, fit_ref f arg = Some r /\ nth_error h r = Some la) ->
  forest_bins c data (if fc_class c then map trunc (la_vals la) else la_vals la) W m ->
  (fc_solver c = EXACT /\ m = 2 \/ fc_solver c = MAB /\ 1 <= fc_batch c /\ fc_bin c <> IDENTITY /\ m = 6) -> e_np e = e_np e' ->
  forest_fit M P c f arg h e = Ok (f', h', e1) -> exists e1', forest_fit M P c f arg h e' = Ok (f', h', e1') /\ e_np e1 = e_np e1'.
Proof.
  intros T R FBN SV NP H. destruct (forest_setup c f arg h data W la m T R) as (f1 & h1 & org & new & SU). pose proof SU as [S1 S2 S3 S4 S5 S6 _]. rewrite S1 in *.
  apply rbind_ok in H. destruct H as [s [E H]].
  destruct (trees_lock M P c data W (fun _ _ => True) (ready c data f1 h1 new) (fgood c data W m f1 (if fc_class c then map trunc (la_vals la) else la_vals la))) with (l := seq 0 (fc_n c)) (7 := E) (s' := {| fs_f := f1; fs_e := e'; fs_h := h1; fs_stop := false |}) as (s' & E' & [Q1 Q2 Q3 Q4 Q5]); auto.
  - intros tc a e2 e2' t e3 t1 e4 (TC & TR & EB) _ N1 N2. specialize (EB FBN). assert (ST : memory_free tc a).
    { destruct SV as [[SV ->]|(SV & BA & BI & ->)]; [left|right]; subst tc; auto. }
    destruct (tree_steady M tc a W TR ST P e2 e2' _ _ _ _ N1 N2) as (e3' & e4' & N1' & N2' & (R1 & R2 & R3)). exists e3', e4'. auto.
  - intros. refine (ready_good c data W m f arg h f1 h1 org new _ _ _ _ _ SU s0 rows feats gen1 rows2 gen2 orgr newr la0 seed _ _ _ _ _ _); auto; [exact (ft_rows _ _ _ _ _ _ T)|exact (ft_cols _ _ _ _ _ _ T)|exact (ft_boost _ _ _ _ _ _ T)|exact (ft_draws _ _ _ _ _ _ T)].
  - intros. eapply ready_step; eauto. exact (ft_boost _ _ _ _ _ _ T).
  - constructor; auto.
  - split; [|split; [|split]]; auto. cbn [fs_f]. exists (f_trees f1), (f_budget f1), (f_queries f1), (f_oob f1), (f_gen f1). now destruct f1.
  - rewrite E'. cbn [rbind]. apply ok_inv in H. apply pair_equal_spec in H. destruct H as [H <-]. apply pair_equal_spec in H. destruct H as [<- <-]. rewrite Q1, Q2. eauto.
Qed.

Lemma forest_seed_only M P c d0 l0 classes budget h e e' f e1 arg f' h' e2 data W la m :
  forest_new P c d0 l0 classes budget h e = Ok (f, e1) ->
  forest_trainable c f arg h data W -> (exists r, fit_ref f arg = Some r /\ nth_error h r = Some la) ->
  forest_bins c data (if fc_class c then map trunc (la_vals la) else la_vals la) W m ->
  (fc_solver c = EXACT /\ m = 2 \/ fc_solver c = MAB /\ 1 <= fc_batch c /\ fc_bin c <> IDENTITY /\ m = 6) ->
  forest_fit M P c f arg h e1 = Ok (f', h', e2) ->
  exists e1' e2', forest_new P c d0 l0 classes budget h e' = Ok (f, e1') /\ forest_fit M P c f arg h e1' = Ok (f', h', e2').
Proof.
  intros H1 T R FB SV H2. destruct (new_np _ _ _ _ _ _ _ _ _ _ H1) as [-> N].
  destruct (fit_any_memory M P c f arg h (set_seed P (fc_seed c) e) (set_seed P (fc_seed c) e') f' h' e2 data W la m T R FB SV eq_refl H2) as (e2' & E & _). eauto.
Qed.

(** Fitting a forest succeeds on well-formed input. *)
From Coq Require Import List Arith Bool ZArith QArith Qcanon Lia Permutation Sorting.
From Verif Require Import Base Num Rng Histogram Utils Criteria Solvers Tree Forest Spec SolverSpec TreeSpec ForestSpec NumFacts ListFacts HistAdd MakeHist DrawFacts TreeFacts CountFacts TreeThms TreeTotal ForestFacts ForestThms ForestMore.
Import ListNotations.
Local Open Scope nat_scope.

(** The assertion never fails. *)
Lemma assertion_redundant M P c data F s i : fit_tree M P c data F s i = fit_tree_unasserted M P c data F s i.
Proof.
  unfold fit_tree, fit_tree_unasserted. destruct (fs_stop s); auto. destruct (subset_draw c (length data) F (f_gen (fs_f s))) as [[[rows feats] gen1]|]; auto. cbn [rbind].
  destruct (match f_budget (fs_f s) with Some b => (b <=? 0)%Z | None => false end) eqn:BB; auto. destruct (opt_res (f_org (fs_f s)) TypeError) as [orgr|]; auto. cbn [rbind].
  destruct (opt_res (f_new (fs_f s)) TypeError) as [newr|]; auto. cbn [rbind]. destruct (if fc_bootstrap c then choice_repl rows (length data) gen1 else Ok (rows, gen1)) as [[rows2 gen2]|]; auto. cbn [rbind].
  destruct (draw (e_np (fs_e s))) as [seed np']. destruct (nth_res (fs_h s) (if fc_class c then orgr else if fc_boosting c then newr else orgr)) as [la|]; auto. cbn [rbind].
  destruct (tree_new P _ _ _) as [te|]; auto. cbn [rbind]. destruct (tree_fit M _ (fst te) (None, None) (snd te)) as [[t e]|]; auto. cbn [rbind].
  destruct (negb (keep_tree (f_budget (fs_f s)) (t_queries t))) eqn:KT; auto. apply negb_false_iff in KT.
  destruct (if fc_boosting c then boost c i (tree_cfg c (f_classes (fs_f s)) (f_minmax (fs_f s))) t data rows2 newr (fs_h s) else Ok (t, fs_h s)) as [[t' h']|] eqn:BT; auto. cbn [rbind].
  assert (Q : t_queries t' = t_queries t).
  { destruct (fc_boosting c); [|apply ok_pair_inv in BT; destruct BT as [<- _]; auto]. apply boost_warmed in BT. eapply warmed_queries; eauto. }
  destruct (f_budget (fs_f s)) as [b|]; auto. cbn in KT. apply andb_true_iff in KT. destruct KT as [_ K2]. apply Z.ltb_lt in K2. assert (G : (- buffer <? b - Z.of_nat (t_queries t'))%Z = true) by (apply Z.ltb_lt; rewrite Q; lia).
  rewrite G. reflexivity.
Qed.

Lemma alpha_choice_total n alpha gen : (1 <= ztrunc (Nq n * alpha)%Qc <= Z.of_nat n)%Z -> exists l gen', alpha_choice n alpha gen = Ok (l, gen') /\ Z.of_nat (length l) = ztrunc (Nq n * alpha)%Qc.
Proof.
  intros [Z1 Z2]. unfold alpha_choice. destruct (Z.ltb_spec (ztrunc (Nq n * alpha)%Qc) 0); [lia|]. unfold choice_norepl. assert (LA : length (arange n) = n) by apply seq_length. rewrite LA.
  destruct (Nat.ltb_spec n (Z.to_nat (ztrunc (Nq n * alpha)%Qc))); [lia|]. destruct (pick_k (Z.to_nat (ztrunc (Nq n * alpha)%Qc)) (arange n) gen) as [l g] eqn:E. exists l, g. split; auto.
  assert (Q : choice_norepl (arange n) (Z.to_nat (ztrunc (Nq n * alpha)%Qc)) gen = Ok (l, g)). { unfold choice_norepl. rewrite LA. destruct (Nat.ltb_spec n (Z.to_nat (ztrunc (Nq n * alpha)%Qc))); [lia|]. now rewrite E. }
  apply choice_norepl_in in Q. destruct Q as [-> _]. lia.
Qed.
Lemma subset_total c N F gen : 1 <= N -> 1 <= F ->
  (qlt (fc_alpha_N c) 1%Qc || qlt (fc_alpha_F c) 1%Qc = true -> (1 <= ztrunc (Nq N * fc_alpha_N c)%Qc <= Z.of_nat N)%Z /\ (1 <= ztrunc (Nq F * fc_alpha_F c)%Qc <= Z.of_nat F)%Z) ->
  exists rows feats gen', subset_draw c N F gen = Ok (rows, feats, gen') /\ rows <> [] /\ Z.of_nat (length feats) = feats_per_tree c F /\ feats <> [].
Proof.
  intros LN LF D. unfold subset_draw, feats_per_tree. destruct (qlt (fc_alpha_N c) 1%Qc || qlt (fc_alpha_F c) 1%Qc).
  - destruct (D eq_refl) as [D1 D2]. destruct (alpha_choice_total _ _ gen D1) as (l & g & E & L). rewrite E. cbn [rbind snd]. destruct (alpha_choice_total _ _ g D2) as (l' & g' & E' & L'). rewrite E'. cbn [rbind fst snd].
    exists l, l', g'. split; auto. split; [intros ->; cbn in L; lia|]. split; [auto|intros ->; cbn in L'; lia].
  - exists (arange N), (arange F), gen. assert (LA : forall n, length (arange n) = n) by (intros; apply seq_length). split; auto.
    split; [intros Z; apply (f_equal (@length nat)) in Z; rewrite LA in Z; cbn in Z; lia|]. split; [now rewrite LA|]. intros Z; apply (f_equal (@length nat)) in Z; rewrite LA in Z; cbn in Z; lia.
Qed.
Lemma choice_repl_total pool k t : pool <> [] -> exists l t', choice_repl pool k t = Ok (l, t').
Proof.
  intros NE. unfold choice_repl. destruct (Nat.eqb_spec (length pool) 0); [destruct pool; [contradiction|discriminate]|]. cbn [andb]. destruct (draws_mod (length pool) k t) as [l t']. eauto.
Qed.
Lemma take_idx_total {A} (l : list A) idcs : (forall i, In i idcs -> i < length l) -> exists r, take_idx l idcs = Ok r.
Proof. intros H. apply mapM_total. intros i I. now apply nth_res_lt, H. Qed.

Lemma predict_batch_total P M tc a e t0 : built P M tc a e t0 -> train_rows a <> [] -> (tc_class tc = true -> good_classes (tc_classes tc)) ->
  forall xs t, warmed tc t0 t -> (forall x g, In x xs -> In g (train_feats a) -> g < length x) -> exists ps t', tree_predict_batch tc t xs = Ok (ps, t').
Proof.
  intros B NE GC xs. induction xs as [|x xs IH]; intros t W L; cbn [tree_predict_batch]; [eauto|].
  destruct (fitted_answers P M tc a e t0 B NE x GC) as (p & t' & A). { intros g I. apply L; [now left|auto]. }
  assert (E : answer (tree_predict tc t x) = Ok p). { destruct W as [ys [qs W]]. rewrite (fitted_memoryless P M tc a e t0 B NE ys qs t x W), A. reflexivity. }
  apply answer_ok in E. destruct E as [t1 E]. rewrite E. cbn [rbind snd fst]. destruct (IH t1) as (ps & t2 & E2).
  - eapply warmed_trans; eauto. eapply warmed_one; eauto.
  - intros y g I. apply L. now right.
  - rewrite E2. cbn. eauto.
Qed.

Lemma boost_total P M tc a e t0 c i data F newr h la : built P M tc a e t0 -> train_rows a <> [] -> tc_class tc = false -> rectangular F data ->
  (forall j, In j (train_rows a) -> j < length data) -> (forall g, In g (train_feats a) -> g < F) -> fc_lr c <> None -> nth_error h newr = Some la -> length (la_vals la) = length data ->
  exists t h', boost c i tc t0 data (train_rows a) newr h = Ok (t, h') /\ exists la', nth_error h' newr = Some la' /\ length (la_vals la') = length data.
Proof.
  intros B NE IC RC RI FI LR HA LL. unfold boost. destruct (take_idx_total data _ RI) as [rows ER]. rewrite ER. cbn [rbind].
  destruct (predict_batch_total P M tc a e t0 B NE ltac:(congruence) rows t0 (warmed_refl _ _)) as (ps & t' & EB).
  { intros x g I J. destruct (take_idx_nth data [] _ _ ER) as [-> _]. apply in_map_iff in I. destruct I as [k [<- I]]. specialize (RI k I). rewrite (RC (nth k data [])); [auto|]. now apply nth_In. }
  rewrite EB. cbn [rbind fst snd]. pose proof (fitted_batch_pointwise P M tc a e t0 B NE rows ps t' EB) as BP. apply mapM_Forall2 in BP.
  assert (G : grown P M tc a t0) by (exists e, t0; split; auto; apply warmed_refl).
  assert (EV : exists vs, preds_reg ps = Ok vs).
  { apply mapM_total. intros p I. apply In_nth_error in I. destruct I as [j J]. assert (JL : j < length rows). { rewrite (Forall2_len _ _ _ BP). apply nth_error_Some. congruence. }
    destruct (Forall2_nth _ _ _ j _ BP (nth_error_nth' rows [] JL)) as (p' & EP & AP). assert (p' = p) by congruence. subst p'. destruct (grown_reg P M tc a t0 G NE _ _ IC AP) as [v [-> _]]. eauto. }
  destruct EV as [vs EV]. rewrite EV. cbn [rbind]. destruct (fc_lr c) as [lr|] eqn:EL; [|contradiction]. cbn [opt_res rbind]. unfold nth_res at 1. rewrite HA. cbn [rbind].
  destruct (take_idx_total (la_vals la) (train_rows a)) as [old EO]. { intros j J. rewrite LL. auto. } rewrite EO. cbn [rbind].
  set (vs' := if i =? 0 then vs else map (fun p => (p * lr)%Qc) vs). assert (EX : exists xs, mapM (fun tp => get_next_target MSELoss false (fst tp) (snd tp)) (combine old vs') = Ok xs) by (apply mapM_total; intros; cbn; eauto).
  destruct EX as [xs EX]. rewrite EX. cbn [rbind]. unfold store, nth_res. rewrite HA. cbn [rbind].
  assert (GB : forallb (fun j => j <? length (la_vals la)) (train_rows a) = true). { apply forallb_forall. intros j J. apply Nat.ltb_lt. rewrite LL. auto. } rewrite GB. cbn [guard rbind].
  eexists _, _. split; [reflexivity|]. eexists. split; [rewrite set_nth_nth, Nat.eqb_refl, HA; reflexivity|]. cbn [la_vals]. rewrite <- LL.
  generalize (combine (train_rows a) (map nan_to_num xs)) as ivs. generalize (la_vals la) as l0. intros l0 ivs. revert l0. induction ivs as [|iv ivs IH]; intros l0; cbn [fold_left]; auto. rewrite IH. apply set_nth_length.
Qed.

Section Total.
Context (M : math) (P : prng) (c : fcfg) (data : list (list Qc)) (W : nat) (f1 : forest) (h1 : heap).
Context (NP : 1 <= length data) (WP : 1 <= W) (RC : rectangular W data).
Context (DR : qlt (fc_alpha_N c) 1%Qc || qlt (fc_alpha_F c) 1%Qc = true -> (1 <= ztrunc (Nq (length data) * fc_alpha_N c)%Qc <= Z.of_nat (length data))%Z /\ (1 <= ztrunc (Nq W * fc_alpha_F c)%Qc <= Z.of_nat W)%Z).
Context (FB : fc_boosting c = true -> fc_class c = false /\ fc_lr c <> None).
Context (org new : nat) (EO : f_org f1 = Some org) (EN : f_new f1 = Some new).
(** The label array a tree may get. *)
Definition labels_fit (la : larr) : Prop :=
  length (la_vals la) = length data /\ (fc_boosting c = false -> nth_error h1 org = Some la).
Context (BUILD : forall la a e, labels_fit la -> ta_labels a = la_vals la -> args_ok c data W (f_dd f1) a -> Z.of_nat (length (train_feats a)) = feats_per_tree c W -> train_feats a <> [] -> train_rows a <> [] -> ((1 <= fc_alpha_N c)%Qc -> (1 <= fc_alpha_F c)%Qc -> train_feats a = arange W) ->
  exists t, built P M (tree_cfg c (f_classes f1) (f_minmax f1)) a e t).

Definition ready (s : fstate) : Prop :=
  (exists ts b q o g, fs_f s = upd_forest f1 ts b q o g) /\ (fc_boosting c = false -> fs_h s = h1) /\
  (exists la, nth_error (fs_h s) new = Some la /\ length (la_vals la) = length data) /\
  (fc_boosting c = true -> length (fs_h s) = length h1).

Context (HO : exists la, nth_error h1 org = Some la /\ length (la_vals la) = length data).
Context (HN : exists la, nth_error h1 new = Some la /\ length (la_vals la) = length data).

Lemma fit_tree_total s i : ready s -> exists s', fit_tree M P c data W s i = Ok s' /\ ready s'.
Proof.
  intros (FR & HH & (lb & HB & LB) & HL). destruct FR as (ts & b & q & o & g & FR). destruct (fs_stop s) eqn:ST.
  { exists s. unfold fit_tree. rewrite ST. split; auto. split; [do 5 eexists; exact FR|]. split; auto. split; eauto. }
  rewrite assertion_redundant. unfold fit_tree_unasserted. rewrite ST. destruct (subset_total c (length data) W (f_gen (fs_f s)) NP WP DR) as (rows & feats & gen1 & ED & NR & LF & NF). rewrite ED. cbn [rbind].
  assert (UPD : forall ts' b' q' o' g' , exists ts b q o g, upd_forest (fs_f s) ts' b' q' o' g' = upd_forest f1 ts b q o g) by (intros; rewrite FR; do 5 eexists; reflexivity).
  destruct (match f_budget (fs_f s) with Some b => (b <=? 0)%Z | None => false end).
  { eexists. split; [reflexivity|]. split; [apply UPD|]. cbn [fs_h]. split; auto. split; eauto. }
  assert (FO : f_org (fs_f s) = Some org) by (rewrite FR; exact EO). assert (FN : f_new (fs_f s) = Some new) by (rewrite FR; exact EN). rewrite FO, FN. cbn [opt_res rbind].
  assert (EB : exists rows2 gen2, (if fc_bootstrap c then choice_repl rows (length data) gen1 else Ok (rows, gen1)) = Ok (rows2, gen2)).
  { destruct (fc_bootstrap c); [now apply choice_repl_total|eauto]. }
  destruct EB as (rows2 & gen2 & EB). rewrite EB. cbn [rbind]. destruct (draw (e_np (fs_e s))) as [seed np'].
  assert (EL : exists la, nth_error (fs_h s) (if fc_class c then org else if fc_boosting c then new else org) = Some la /\ labels_fit la).
  { destruct HO as (la & A1 & A2). destruct (fc_boosting c) eqn:BO.
    - destruct (FB eq_refl) as [-> _]. exists lb. split; auto. split; auto. congruence.
    - exists la. rewrite (HH eq_refl). destruct (fc_class c); split; auto; split; auto. }
  destruct EL as (la & EL & LA). unfold nth_res at 1. rewrite EL. cbn [rbind].
  set (a := {| ta_data := data; ta_labels := la_vals la; ta_budget := f_budget (fs_f s); ta_dd := f_dd (fs_f s); ta_seed := seed; ta_idcs := Some rows2; ta_feats := Some feats |}).
  destruct (subset_draw_spec _ _ _ _ _ _ _ ED) as [D1 [D2 [D3 D4]]].
  assert (R : (forall i, In i rows2 -> In i rows) /\ (fc_bootstrap c = true -> length rows2 = length data) /\ (fc_bootstrap c = false -> rows2 = rows)).
  { destruct (fc_bootstrap c).
    - apply choice_repl_in in EB. destruct EB as [B1 B2]. split; auto. split; auto. discriminate.
    - apply ok_pair_inv in EB. destruct EB as [<- _]. split; auto. split; auto. discriminate. }
  destruct R as [R1 [R2 R3]].
  assert (NE : train_rows a <> []).
  { cbn. destruct (fc_bootstrap c) eqn:BS; [|now rewrite R3]. specialize (R2 eq_refl). intros ->. cbn in R2. lia. }
  assert (AO : args_ok c data W (f_dd f1) a).
  { constructor; auto.
    - cbn. rewrite FR. reflexivity.
    - intros [A1 [A2 A3]]. cbn. rewrite (R3 A1). now apply D4. }
  destruct (BUILD la a (set_np (fs_e s) np') LA eq_refl AO LF NF NE (fun A B => proj2 (D4 A B))) as (t & t1 & e1 & e2 & N1 & N2).
  assert (TC : tree_cfg c (f_classes (fs_f s)) (f_minmax (fs_f s)) = tree_cfg c (f_classes f1) (f_minmax f1)) by (rewrite FR; reflexivity). rewrite TC. rewrite N1. cbn [rbind fst snd]. rewrite N2. cbn [rbind].
  destruct (negb (keep_tree (f_budget (fs_f s)) (t_queries t))).
  { eexists. split; [reflexivity|]. split; [apply UPD|]. cbn [fs_h]. split; auto. split; eauto. }
  assert (BD : built P M (tree_cfg c (f_classes f1) (f_minmax f1)) a (set_np (fs_e s) np') t) by (exists t1, e1, e2; auto).
  destruct (fc_boosting c) eqn:BO.
  - destruct (FB eq_refl) as [IC NL].
    destruct (boost_total P M _ a _ t c i data W new (fs_h s) lb BD NE IC RC) as (t' & h' & EH & la' & L1 & L2); auto.
    change (train_rows a) with rows2 in EH. rewrite EH. cbn [rbind]. eexists. split; [reflexivity|]. split; [apply UPD|]. cbn [fs_h]. split; [intros Q; congruence|]. split; [eauto|]. intros _. destruct (boost_frame _ _ _ _ _ _ _ _ _ _ EH) as [-> _]. auto.
  - cbn [rbind]. eexists. split; [reflexivity|]. split; [apply UPD|]. cbn [fs_h]. split; auto. split; [eauto|]. intros Q; congruence.
Qed.
Lemma loop_total l : forall s, ready s -> exists s', foldM (fit_tree M P c data W) s l = Ok s' /\ ready s'.
Proof.
  induction l as [|i l IH]; intros s R; cbn [foldM]; [eauto|]. destruct (fit_tree_total s i R) as (s1 & E & R1). rewrite E. cbn [rbind]. now apply IH.
Qed.
End Total.

Lemma col_minmax_spec data W mn mx : rectangular W data -> 1 <= length data -> col_minmax data W = Ok (mn, mx) ->
  length mn = W /\ length mx = W /\ forall f x y, nth_error mn f = Some x -> nth_error mx f = Some y ->
    (x <= y)%Qc /\ forall i, i < length data -> (x <= cell data i f)%Qc /\ (cell data i f <= y)%Qc.
Proof.
  intros RC NP H. unfold col_minmax in H. apply rbind_ok in H. destruct H as [a [E1 H]]. apply rbind_ok in H. destruct H as [b [E2 H]]. apply ok_pair_inv in H. destruct H as [<- <-].
  pose proof (mapM_length _ _ _ E1) as L1. pose proof (mapM_length _ _ _ E2) as L2. rewrite seq_length in L1, L2. split; auto. split; auto. intros f x y X Y.
  destruct (mapM_nth _ _ _ _ _ E1 X) as (k & K1 & K2). destruct (mapM_nth _ _ _ _ _ E2 Y) as (k' & K1' & K2').
  assert (FL : f < W) by (rewrite <- L1; apply nth_error_Some; congruence). assert (KF : forall k, nth_error (seq 0 W) f = Some k -> k = f). { intros k0 Q. apply nth_error_nth with (d := 0) in Q. rewrite seq_nth in Q by auto. auto. }
  apply KF in K1. apply KF in K1'. subst k k'. apply rbind_ok in K2. destruct K2 as [v [C1 M1]]. rewrite C1 in K2'. cbn [rbind] in K2'. split; [eapply list_min_max; eauto|].
  intros i LI. apply col_ok in C1. assert (IV : In (cell data i f) v). { rewrite C1. unfold cell. apply in_map_iff. exists (nth i data []). split; auto. now apply nth_In. }
  split; [now apply list_min_spec in M1; apply M1|]. apply list_max_spec in K2'. now apply K2'.
Qed.
Lemma col_minmax_total data W : rectangular W data -> 1 <= length data -> exists m, col_minmax data W = Ok m.
Proof.
  intros RC NP. unfold col_minmax. assert (C : forall f, In f (seq 0 W) -> exists v, col data f = Ok v /\ v <> []).
  { intros f I. apply in_seq in I. destruct (col_total data f W RC) as [v E]; [lia|]. exists v. split; auto. apply col_ok in E. intros ->. destruct data; [cbn in NP; lia|discriminate E]. }
  destruct (mapM_total (fun f => do c <- col data f; list_min c) (seq 0 W)) as [mn E1]. { intros f I. destruct (C f I) as (v & E & NV). rewrite E. cbn [rbind]. destruct v; [contradiction|]. cbn. eauto. }
  destruct (mapM_total (fun f => do c <- col data f; list_max c) (seq 0 W)) as [mx E2]. { intros f I. destruct (C f I) as (v & E & NV). rewrite E. cbn [rbind]. destruct v; [contradiction|]. cbn. eauto. }
  rewrite E1, E2. cbn. eauto.
Qed.
Lemma discrete_total data W : rectangular W data -> 1 <= length data -> exists d, data_to_discrete data 10 = Ok d /\ dd_default d = true.
Proof.
  intros RC NP. unfold data_to_discrete. destruct data as [|r0 data]; [cbn in NP; lia|]. cbn [nth_res nth_error rbind]. assert (L0 : length r0 = W) by (apply RC; now left). rewrite L0.
  match goal with |- context [mapM ?g (seq 0 W)] => destruct (mapM_total g (seq 0 W)) as [items E] end.
  - intros f I. apply in_seq in I. destruct (col_total (r0 :: data) f W RC) as [v E]; [lia|]. rewrite E. cbn. eauto.
  - rewrite E. cbn [rbind]. eexists. split; reflexivity.
Qed.

(** What fit does before the first tree, and what every tree is given. *)
Record fit_setup (c : fcfg) (f : forest) (arg : option (list (list Qc)) * option nat) (h : heap) (data : list (list Qc)) (W m : nat) (f1 : forest) (h1 : heap) (org new : nat) (L : list Qc) : Prop := {
  su_run : forall M P e, forest_fit M P c f arg h e = (do s <- foldM (fit_tree M P c data W) {| fs_f := f1; fs_e := e; fs_h := h1; fs_stop := false |} (seq 0 (fc_n c)); Ok (fs_f s, fs_h s, fs_e s));
  su_org : f_org f1 = Some org; su_new : f_new f1 = Some new;
  su_org_at : exists la, nth_error h1 org = Some la /\ length (la_vals la) = length data;
  su_new_at : exists la, nth_error h1 new = Some la /\ length (la_vals la) = length data;
  su_tree : forall la a, labels_fit c data h1 org la -> ta_labels a = la_vals la -> args_ok c data W (f_dd f1) a -> Z.of_nat (length (train_feats a)) = feats_per_tree c W -> train_feats a <> [] -> train_rows a <> [] -> ((1 <= fc_alpha_N c)%Qc -> (1 <= fc_alpha_F c)%Qc -> train_feats a = arange W) ->
     trainable (tree_cfg c (f_classes f1) (f_minmax f1)) a W /\ (forest_bins c data L W m -> enough_bins (tree_cfg c (f_classes f1) (f_minmax f1)) a m);
  su_pre : exists r n dd mm, match arg with (None, None) => Ok (f_data f, f_org f, f_new f) | (Some d, Some r) => Ok (Some d, Some r, Some r) | _ => Err GenericException end = Ok (Some data, Some r, Some n) /\
     (if fc_class c then do a <- astype_int h r; do b <- astype_int (fst a) n; Ok (Some (snd a), Some (snd b), fst b) else Ok (Some r, Some n, h)) = Ok (Some org, Some new, h1) /\
     (if match fc_bin c with LINEAR | IDENTITY => false | _ => fc_make_discrete c end then do d <- data_to_discrete data 10; Ok (Some d) else Ok (f_dd f)) = Ok dd /\
     (if fc_precomp_minmax c then do m <- col_minmax data W; Ok (Some m) else Ok (f_minmax f)) = Ok mm /\
     f1 = {| f_data := Some data; f_org := Some org; f_new := Some new; f_trees := []; f_classes := f_classes f; f_ncl := f_ncl f; f_dd := dd; f_minmax := mm; f_budget := f_budget f; f_queries := f_queries f;
       f_oob := if fc_oob c then [] else f_oob f; f_mdg := f_mdg f; f_gen := f_gen f |}
}.

Lemma forest_setup c f arg h data W la m : forest_trainable c f arg h data W -> (exists r, fit_ref f arg = Some r /\ nth_error h r = Some la) ->
  exists f1 h1 org new, fit_setup c f arg h data W m f1 h1 org new (if fc_class c then map trunc (la_vals la) else la_vals la).
Proof.
  intros T (r0 & ER0 & ELA). destruct T as [T1 T2 T3 T4 T5 (r & n & la' & lb & T6 & T7 & T8 & T9 & T10 & T11 & T12) T13 T14 T15 T16 T17 T18 T19 T20].
  assert (r0 = r) by congruence. subst r0. assert (la' = la) by congruence. subst la'.
  assert (A : match arg with (None, None) => Ok (f_data f, f_org f, f_new f) | (Some d, Some r) => Ok (Some d, Some r, Some r) | _ => Err GenericException end = Ok (Some data, Some r, Some n)).
  { unfold fit_data, fit_ref, boost_ref in *. destruct arg as [[d|] [r'|]]; cbn [fst snd] in *.
    - congruence.
    - destruct T1 as [_ T1]. discriminate (T1 eq_refl).
    - destruct T1 as [T1 _]. discriminate (T1 eq_refl).
    - congruence. }
  destruct (nth_res_lt data 0) as [r0 ER]; [lia|]. pose proof ER as ER'. apply nth_res_ok in ER'.
  assert (LR : length r0 = W) by (apply T5; eapply nth_error_In; eauto).
  assert (HH : exists org new h1 la1, (if fc_class c then do a <- astype_int h r; do b <- astype_int (fst a) n; Ok (Some (snd a), Some (snd b), fst b) else Ok (Some r, Some n, h)) = Ok (Some org, Some new, h1) /\
     nth_error h1 org = Some la1 /\ la_vals la1 = (if fc_class c then map trunc (la_vals la) else la_vals la) /\ length (la_vals la1) = length data /\ exists lb1, nth_error h1 new = Some lb1 /\ length (la_vals lb1) = length data).
  { destruct (fc_class c).
    - unfold astype_int, nth_res. rewrite T8. cbn [rbind fst snd]. rewrite nth_error_app1 by (apply nth_error_Some; congruence). rewrite T9. cbn [rbind fst snd]. eexists _, _, _, _. split; [reflexivity|].
      rewrite <- app_assoc. split; [rewrite nth_error_app2, Nat.sub_diag by lia; reflexivity|]. cbn [la_vals]. split; auto. split; [now rewrite map_length|]. eexists. split.
      + rewrite nth_error_app2 by (rewrite app_length; lia). rewrite app_length. cbn [length]. replace (length h + 1 - length h) with 1 by lia. reflexivity.
      + cbn [la_vals]. now rewrite map_length.
    - eexists r, n, h, la. split; [reflexivity|]. split; auto. split; auto. split; auto. eauto. }
  destruct HH as (org & new & h1 & la1 & EH & HO & LV & LO & HN).
  assert (DD : exists dd, (if match fc_bin c with LINEAR | IDENTITY => false | _ => fc_make_discrete c end then do d <- data_to_discrete data 10; Ok (Some d) else Ok (f_dd f)) = Ok dd /\ dd_fine dd).
  { destruct (match fc_bin c with LINEAR | IDENTITY => false | _ => fc_make_discrete c end); [|eauto]. destruct (discrete_total data W T5 T3) as (d & E & DF). rewrite E. cbn. eauto. }
  destruct DD as (dd & ED & DF).
  assert (MM : exists mm, (if fc_precomp_minmax c then do m <- col_minmax data W; Ok (Some m) else Ok (f_minmax f)) = Ok mm /\ (if fc_precomp_minmax c then exists m, mm = Some m /\ col_minmax data W = Ok m else mm = None)).
  { destruct (fc_precomp_minmax c); [|exists (f_minmax f); auto]. destruct (col_minmax_total data W T5 T3) as [mm E]. rewrite E. cbn. eauto. }
  destruct MM as (mm & EM & MM).
  set (f1 := {| f_data := Some data; f_org := Some org; f_new := Some new; f_trees := []; f_classes := f_classes f; f_ncl := f_ncl f; f_dd := dd; f_minmax := mm; f_budget := f_budget f; f_queries := f_queries f;
     f_oob := if fc_oob c then [] else f_oob f; f_mdg := f_mdg f; f_gen := f_gen f |}).
  exists f1, h1, org, new. constructor; [|reflexivity|reflexivity|eauto|exact HN| |exists r, n, dd, mm; auto].
  { intros M P e. unfold forest_fit. rewrite A. cbn [rbind opt_res]. rewrite ER. cbn [rbind]. rewrite LR, EH. cbn [rbind]. rewrite ED. cbn [rbind]. rewrite EM. reflexivity. }
    intros lc a [L1 L2] EL AO LF NF NE FA. destruct AO as [A1 A2 A3 A4 A5 A6 A7 A8]. 
    assert (CB : fc_class c = true -> fc_boosting c = false). { intros IC. destruct (fc_boosting c); auto. destruct (T18 eq_refl). congruence. }
    assert (TR : trainable (tree_cfg c (f_classes f1) (f_minmax f1)) a W).
    { constructor; cbn [tree_cfg tc_class tc_max_depth tc_classes tc_fsub tc_max_leaves tc_crit tc_splitter tc_minmax f1 f_classes f_minmax]; auto.
      - rewrite EL, A1. auto.
      - rewrite A1. auto.
      - intros i I. rewrite EL, L1. auto.
      - destruct (fc_fsub c); auto. lia.
      - destruct (fc_class c); auto.
      - intros IC. split; [|exact (T13 IC)]. intros i I. rewrite EL. assert (lc = la1) by (rewrite (L2 (CB IC)) in HO; congruence). subst lc. rewrite LV, IC. specialize (A3 i I).
        assert (IL : i < length (la_vals la)) by lia.
        rewrite nth_indep with (d' := trunc 0%Qc) by now rewrite map_length. rewrite map_nth. apply T12; auto. now apply nth_In.
      - destruct (fc_precomp_minmax c); [|now rewrite MM]. destruct MM as ([mn mx] & -> & MM). destruct (col_minmax_spec _ _ _ _ T5 T3 MM) as (M1 & M2 & M3). split; [lia|]. split; [lia|]. intros g x y X Y. now apply (M3 g x y).
      - rewrite A2. exact DF. }
    assert (EB : forest_bins c data (if fc_class c then map trunc (la_vals la) else la_vals la) W m -> enough_bins (tree_cfg c (f_classes f1) (f_minmax f1)) a m).
    { intros FBN. destruct FBN as [B1 B2]. split; cbn [tree_cfg tc_bin tc_log_split tc_nb tc_minmax tc_fsub f1 f_minmax]; auto. destruct (fc_bin c); auto. destruct (fc_precomp_minmax c).
      - destruct MM as ([mn mx] & -> & MM). destruct (col_minmax_spec _ _ _ _ T5 T3 MM) as (M1 & M2 & M3). intros g x y I X Y ->. destruct (M3 g y y X Y) as [_ K]. destruct (B2 g (A4 g I)) as (i & j & I1 & I2 & I3).
        apply I3. transitivity y; [apply Qcle_antisym|apply Qcle_antisym]; try apply (K i I1); apply (K j I2).
      - rewrite MM. destruct B2 as (B2 & B3 & B4 & B5 & B6). split; auto. intros i j Ii Ij EQ. rewrite EL. assert (lc = la1) by (rewrite (L2 B5) in HO; congruence). subst lc. rewrite LV. apply B6; auto.
        intros g LG. rewrite A1 in EQ. apply EQ. rewrite (FA B3 B4). now apply arange_in. }
    split; [exact TR|exact EB].
Qed.

Lemma forest_fits M P c f arg h e data W la m : forest_trainable c f arg h data W -> (exists r, fit_ref f arg = Some r /\ nth_error h r = Some la) ->
  forest_bins c data (if fc_class c then map trunc (la_vals la) else la_vals la) W m ->
  (fc_solver c = EXACT /\ m = 2 \/ fc_solver c = MAB /\ fc_class c = true /\ 1 <= fc_batch c /\ fc_bin c <> IDENTITY /\ m = 6) ->
  exists f' h' e', forest_fit M P c f arg h e = Ok (f', h', e').
Proof.
  intros T R FBN SV. destruct (forest_setup c f arg h data W la m T R) as (f1 & h1 & org & new & [S1 S2 S3 S4 S5 S6 _]). rewrite S1.
  destruct (loop_total M P c data W f1 h1 (ft_rows _ _ _ _ _ _ T) (ft_cols _ _ _ _ _ _ T) (ft_rect _ _ _ _ _ _ T) (ft_draws _ _ _ _ _ _ T) (ft_boost _ _ _ _ _ _ T) org new S2 S3) with (l := seq 0 (fc_n c)) (s := {| fs_f := f1; fs_e := e; fs_h := h1; fs_stop := false |}) as (s' & ES & _); auto.
  - intros lc a e1 LF EL AO FL NF NE FA. destruct (S6 lc a LF EL AO FL NF NE FA) as [TR EB]. specialize (EB FBN). destruct SV as [[SV ->]|(SV & IC & BA & BI & ->)].
    + apply (exact_fits P M _ a W e1 TR SV EB).
    + apply (mab_fits P M _ a W e1 TR SV IC BA BI EB).
  - split; [|split; [|split]]; auto. cbn [fs_f]. exists (f_trees f1), (f_budget f1), (f_queries f1), (f_oob f1), (f_gen f1). now destruct f1.
  - rewrite ES. cbn. eauto.
Qed.

(** The life of a wrapper: what it is trained on, when fit succeeds, when it cannot. *)
From Coq Require Import List Arith Bool ZArith QArith Qcanon Lia Permutation.
From Verif Require Import Base Num Rng Histogram Utils Criteria Solvers Tree Forest Wrappers Spec SolverSpec TreeSpec ForestSpec WrapSpec.
From Verif Require Import NumFacts ListFacts DrawFacts TreeFacts TreeThms TreeTotal TreeMore ForestFacts ForestThms ForestTotal ForestLife ForestRepro WrapFacts.
Import ListNotations.
Local Open Scope nat_scope.

(** ** Rows and columns chosen by the patches wrappers *)
Lemma ceil_choice_ok n alpha gen l gen' : ceil_choice n alpha gen = Ok (l, gen') -> sample_of alpha n l.
Proof.
  unfold ceil_choice. destruct (Z.ltb_spec (qceil (alpha * Nq n)%Qc) 0) as [|G]; [discriminate|]. intros H. apply choice_norepl_in in H.
  destruct H as (L & I & N). split; [apply N; apply seq_NoDup|]. split; [|rewrite L; lia]. intros i J. apply I in J. apply in_seq in J. lia.
Qed.

Lemma as_num_value v q : as_num v = Ok q -> num_value v q.
Proof. intros H. destruct v; try discriminate H; injection H as <-; [right; eauto|now left]. Qed.

Lemma patch_ok P p h p' J h' : patch P p h = Ok (p', J, h') ->
  exists X r0 r la I aN aF, param Kdata p VNone = VTable X /\ nth_error X 0 = Some r0 /\ param Klabels p VNone = VArr r /\ nth_error h r = Some la /\
    as_num (param Kalpha_N p VNone) = Ok aN /\ as_num (param Kalpha_F p VNone) = Ok aF /\ sample_of aN (length X) I /\ sample_of aF (length r0) J /\
    (forall i, In i I -> i < length (la_vals la)) /\
    h' = h ++ [{| la_int := la_int la; la_vals := map (fun i => nth i (la_vals la) 0%Qc) I |}] /\
    p' = [(Kdata, VTable (map (fun i => map (cell X i) J) I)); (Klabels, VArr (length h))] ++ p.
Proof.
  intros H. unfold patch in H.
  apply rbind_ok in H; destruct H as [od [E1 H]].
  apply rbind_ok in H; destruct H as [X [E2 H]].
  apply rbind_ok in H; destruct H as [r0 [E3 H]].
  apply rbind_ok in H; destruct H as [seed [E4 H]].
  apply rbind_ok in H; destruct H as [aN [E5 H]].
  apply rbind_ok in H; destruct H as [[I g1] [E6 H]].
  apply rbind_ok in H; destruct H as [aF [E7 H]].
  apply rbind_ok in H; destruct H as [[J0 g2] [E8 H]]. cbn [fst snd] in *.
  apply rbind_ok in H; destruct H as [sub [E9 H]].
  apply rbind_ok in H; destruct H as [ol [E10 H]].
  apply rbind_ok in H; destruct H as [r [E11 H]].
  apply rbind_ok in H; destruct H as [la [E12 H]].
  apply rbind_ok in H; destruct H as [ls [E13 H]]. injection H as <- <- <-.
  apply nth_res_ok in E3. apply nth_res_ok in E12. apply subset_2d_map in E9. subst sub.
  destruct (take_idx_nth (la_vals la) 0%Qc _ _ E13) as [-> LI].
  exists X, r0, r, la, I, aN, aF.
  assert (A : param Kdata p VNone = VTable X).
  { destruct od as [x|]; [|discriminate E2]. injection E2 as ->. destruct (param Kdata p VNone); try discriminate E1. now injection E1 as ->. }
  assert (B : param Klabels p VNone = VArr r).
  { destruct ol as [x|]; [|discriminate E11]. injection E11 as ->. destruct (param Klabels p VNone); try discriminate E10. now injection E10 as ->. }
  apply ceil_choice_ok in E6. apply ceil_choice_ok in E8. auto 15.
Qed.

Lemma bound_param w args p k d : bind (w_sig w) args = Ok p -> kget k (w_sig w) = Some d -> param k p VNone = match kget k args with Some v => v | None => d end.
Proof. intros B E. pose proof (bind_ok _ _ _ B) as (_ & K & _). unfold param. now rewrite (K _ _ E). Qed.

Lemma super_data w p' : param Kdata (super_args w p') VNone = param Kdata p' VNone /\ param Klabels (super_args w p') VNone = param Klabels p' VNone.
Proof. unfold param, super_args. rewrite !kget_eval. split; reflexivity. Qed.

Lemma class_param P b args h e attrs c f e' k : (k = Kdata \/ k = Klabels) -> forest_class P b args h e = Ok (attrs, c, f, e') -> kget k args <> None -> param k attrs VNone = param k args VNone.
Proof.
  intros KK H N. apply forest_class_ok in H. destruct H as (q & data & labels & classes & budget & B & AT & _).
  pose proof (bind_ok _ _ _ B) as (_ & K1 & _).
  assert (E : kget k (class_sig b) = Some VNone) by (destruct KK as [->| ->], b; reflexivity).
  unfold param. rewrite AT, kget_app, (K1 _ _ E). destruct (kget k args); [reflexivity|contradiction].
Qed.

Lemma construct_data P w args h e o h' e' : construct P w args h e = Ok (o, h', e') ->
  exists p p', bind (w_sig w) args = Ok p /\ prepare P w p h = Ok (p', wo_feats o, h') /\
    attribute o Kdata = param Kdata p' VNone /\ attribute o Klabels = param Klabels p' VNone.
Proof.
  intros H. apply construct_ok in H. destruct H as (p & p' & B & PR & FC). exists p, p'. split; auto. split; auto.
  assert (ND : forall k, k = Kdata \/ k = Klabels -> kget k (super_args w p') <> None).
  { intros k [->| ->]; unfold super_args; rewrite kget_eval; cbn; discriminate. }
  destruct (super_data w p') as [S1 S2].
  unfold attribute. fold (param Kdata (wo_attrs o) VNone) (param Klabels (wo_attrs o) VNone).
  rewrite (class_param _ _ _ _ _ _ _ _ _ Kdata (or_introl eq_refl) FC) by auto.
  rewrite (class_param _ _ _ _ _ _ _ _ _ Klabels (or_intror eq_refl) FC) by auto. auto.
Qed.

Lemma forest_fields P w args h e o h' e' : construct P w args h e = Ok (o, h', e') ->
  (forall X, attribute o Kdata = VTable X -> f_data (wo_forest o) = Some X) /\ (attribute o Kdata = VNone -> f_data (wo_forest o) = None) /\
  (forall r, attribute o Klabels = VArr r -> f_org (wo_forest o) = Some r) /\ (attribute o Klabels = VNone -> f_org (wo_forest o) = None).
Proof.
  intros H. destruct (built_new _ _ _ _ _ _ _ _ H) as (d & l & cl & bu & E1 & E2 & _ & _ & FN). apply new_shape in FN. destruct FN as (-> & -> & _).
  repeat split.
  - intros X EX. rewrite EX in E1. injection E1 as <-. reflexivity.
  - intros EX. rewrite EX in E1. injection E1 as <-. reflexivity.
  - intros X EX. rewrite EX in E2. injection E2 as <-. reflexivity.
  - intros EX. rewrite EX in E2. injection E2 as <-. reflexivity.
Qed.

Lemma passed_of w args p k v : bind (w_sig w) args = Ok p -> kget k (w_sig w) = Some VNone -> param k p VNone = v -> v <> VNone -> passes args k v.
Proof.
  intros B E A N. rewrite (bound_param _ _ _ _ _ B E) in A. destruct (kget k args) eqn:K; [|now subst v]. subst. now apply kget_in.
Qed.

Lemma patch_shape P w args h e o h' e' : construct P w args h e = Ok (o, h', e') -> patched w ->
  exists X r0 r la vN vF aN aF I J, passes args Kdata (VTable X) /\ nth_error X 0 = Some r0 /\ passes args Klabels (VArr r) /\ nth_error h r = Some la /\
    passes args Kalpha_N vN /\ num_value vN aN /\ passes args Kalpha_F vF /\ num_value vF aF /\
    sample_of aN (length X) I /\ sample_of aF (length r0) J /\ (forall i, In i I -> i < length (la_vals la)) /\
    wo_feats o = Some J /\ f_data (wo_forest o) = Some (map (fun i => map (cell X i) J) I) /\
    f_org (wo_forest o) = Some (length h) /\
    h' = h ++ [{| la_int := la_int la; la_vals := map (fun i => nth i (la_vals la) 0%Qc) I |}].
Proof.
  intros H PW. destruct (forest_fields _ _ _ _ _ _ _ _ H) as (F1 & _ & F3 & _).
  destruct (construct_data _ _ _ _ _ _ _ _ H) as (p & p' & B & PR & A1 & A2).
  assert (WP : w_prep w = PPatch) by (destruct PW as [->|[->|[->| ->]]]; reflexivity).
  unfold prepare in PR. rewrite WP in PR. apply rbind_ok in PR; destruct PR as [u [G PR]].
  apply rbind_ok in PR; destruct PR as [[[p1 J] h1] [PA PR]]. injection PR as <- EF <-.
  apply patch_ok in PA. destruct PA as (X & r0 & r & la & I & aN & aF & E1 & E2 & E3 & E4 & E5 & E6 & S1 & S2 & LI & EH & EP).
  assert (D1 : kget Kdata (w_sig w) = Some VNone) by reflexivity. assert (D2 : kget Klabels (w_sig w) = Some VNone) by reflexivity.
  assert (D3 : kget Kalpha_N (w_sig w) = Some VNone) by (destruct PW as [->|[->|[->| ->]]]; reflexivity).
  assert (D4 : kget Kalpha_F (w_sig w) = Some VNone) by (destruct PW as [->|[->|[->| ->]]]; reflexivity).
  subst p1. cbn [param kget app kw_eqb kw_code Nat.eqb] in A1, A2.
  exists X, r0, r, la, (param Kalpha_N p VNone), (param Kalpha_F p VNone), aN, aF, I, J.
  split; [eapply passed_of; eauto; discriminate|]. split; [assumption|].
  split; [eapply passed_of; eauto; discriminate|]. split; [assumption|].
  split; [eapply passed_of; eauto; intros Q; rewrite Q in E5; discriminate E5|]. split; [now apply as_num_value|].
  split; [eapply passed_of; eauto; intros Q; rewrite Q in E6; discriminate E6|]. split; [now apply as_num_value|].
  auto 10.
Qed.

Lemma plain_shape P w args h e o h' e' : construct P w args h e = Ok (o, h', e') -> ~ patched w ->
  h' = h /\ wo_feats o = None /\
  (forall X, passes args Kdata (VTable X) -> f_data (wo_forest o) = Some X) /\ ((forall v, ~ passes args Kdata v) -> f_data (wo_forest o) = None) /\
  (forall r, passes args Klabels (VArr r) -> f_org (wo_forest o) = Some r) /\ ((forall v, ~ passes args Klabels v) -> f_org (wo_forest o) = None).
Proof.
  intros H PW. destruct (forest_fields _ _ _ _ _ _ _ _ H) as (F1 & F2 & F3 & F4). pose proof (constructible _ _ _ _ _ _ _ _ H) as NB. pose proof (args_distinct _ _ _ _ _ _ _ _ H) as AD.
  destruct (construct_data _ _ _ _ _ _ _ _ H) as (p & p' & B & PR & A1 & A2).
  assert (Q : p' = p /\ wo_feats o = None /\ h' = h).
  { assert (WP : w_prep w <> PPatch) by (destruct w; try discriminate; exfalso; first [apply PW; unfold patched; tauto | apply NB; unfold boosted_classifier; tauto]).
    unfold prepare in PR. destruct (w_prep w); [now injection PR as <- <- <-| | |contradiction];
      apply rbind_ok in PR; destruct PR as [u [G PR]]; now injection PR as <- <- <-. }
  destruct Q as (-> & -> & ->). split; auto. split; auto.
  rewrite (bound_param _ _ _ Kdata VNone B eq_refl) in A1. rewrite (bound_param _ _ _ Klabels VNone B eq_refl) in A2.
  split; [intros X I; apply F1; rewrite A1; unfold passes in I; now rewrite (kget_distinct _ _ _ AD I)|].
  split; [intros N; apply F2; rewrite A1; destruct (kget Kdata args) eqn:E; [apply kget_in in E; destruct (N _ E)|reflexivity]|].
  split; [intros X I; apply F3; rewrite A2; unfold passes in I; now rewrite (kget_distinct _ _ _ AD I)|].
  intros N; apply F4; rewrite A2; destruct (kget Klabels args) eqn:E; [apply kget_in in E; destruct (N _ E)|reflexivity].
Qed.

(** ** Forests without a depth limit cannot be fitted *)
Definition forest_with (c : fcfg) (n : nat) (d : depthlim) (b : bintype) : fcfg :=
  {| fc_class := fc_class c; fc_n := n; fc_max_depth := d; fc_bootstrap := fc_bootstrap c; fc_fsub := fc_fsub c; fc_min_split := fc_min_split c;
     fc_min_imp := fc_min_imp c; fc_max_leaves := fc_max_leaves c; fc_bin := b; fc_nb := fc_nb c; fc_crit := fc_crit c; fc_splitter := fc_splitter c;
     fc_solver := fc_solver c; fc_seed := fc_seed c; fc_repl := fc_repl c; fc_boosting := fc_boosting c; fc_lr := fc_lr c; fc_make_discrete := fc_make_discrete c;
     fc_precomp_minmax := fc_precomp_minmax c; fc_log_split := fc_log_split c; fc_dyn_eps := fc_dyn_eps c; fc_eps := fc_eps c; fc_oob := fc_oob c;
     fc_batch := fc_batch c; fc_alpha_N := fc_alpha_N c; fc_alpha_F := fc_alpha_F c |}.

Lemma forest_no_depth M P c f arg h e data W : forest_trainable (forest_with c (fc_n c) DInf (fc_bin c)) f arg h data W ->
  fc_make_discrete c = false -> fc_max_depth c = DNone -> fc_max_leaves c <> Some 1 -> 1 <= fc_n c -> (forall b, f_budget f = Some b -> (0 < b)%Z) ->
  forest_fit M P c f arg h e = Err TypeError.
Proof.
  intros T MK MD ML NN BU. set (c0 := forest_with c 0 DInf IDENTITY).
  assert (T0 : forest_trainable c0 f arg h data W) by (destruct T; constructor; assumption).
  assert (R : exists r la, fit_ref f arg = Some r /\ nth_error h r = Some la).
  { destruct (ft_labels _ _ _ _ _ _ T) as (r & n & la & lb & A & _ & B & _). eauto. }
  destruct R as (r & la & R1 & R2).
  assert (FB : forest_bins c0 data (if fc_class c0 then map trunc (la_vals la) else la_vals la) W 0).
  { split; cbn; [intros [Q|Q]; discriminate Q|exact I]. }
  destruct (forest_setup c0 f arg h data W la 0 T0 (ex_intro _ r (conj R1 R2))) as (f1 & h1 & org & new & [S1 S2 S3 S4 S5 S6 _]).
  specialize (S1 M P e). change (fc_n c0) with 0 in S1. cbn [seq foldM rbind fs_f fs_h fs_e] in S1.
  unfold forest_fit in S1 |- *.
  apply rbind_ok in S1; destruct S1 as [[[od o1] n1] [E1 S1]]. rewrite E1. cbn [rbind].
  apply rbind_ok in S1; destruct S1 as [data' [E2 S1]]. rewrite E2. cbn [rbind].
  apply rbind_ok in S1; destruct S1 as [r0 [E3 S1]]. rewrite E3. cbn [rbind].
  apply rbind_ok in S1; destruct S1 as [[[o2 n2] h2] [E4 S1]]. change (fc_class c0) with (fc_class c) in E4. rewrite E4. cbn [rbind].
  apply rbind_ok in S1; destruct S1 as [dd [E5 S1]]. cbn [c0 forest_with fc_bin] in E5.
  assert (MKD : match fc_bin c with LINEAR | IDENTITY => false | _ => fc_make_discrete c end = false) by (rewrite MK; now destruct (fc_bin c)).
  rewrite MKD, E5. cbn [rbind].
  apply rbind_ok in S1; destruct S1 as [mm [E6 S1]]. change (fc_precomp_minmax c0) with (fc_precomp_minmax c) in E6. rewrite E6. cbn [rbind].
  change (fc_n c0) with 0 in S1. cbn [seq foldM rbind fs_f fs_h fs_e] in S1. apply ok_inv in S1.
  assert (EF : {| f_data := Some data'; f_org := o2; f_new := n2; f_trees := []; f_classes := f_classes f; f_ncl := f_ncl f; f_dd := dd; f_minmax := mm; f_budget := f_budget f; f_queries := f_queries f;
     f_oob := if fc_oob c then [] else f_oob f; f_mdg := f_mdg f; f_gen := f_gen f |} = f1) by exact (f_equal (fun x => fst (fst x)) S1).
  assert (EH : h2 = h1) by exact (f_equal (fun x => snd (fst x)) S1). clear S1.
  assert (ED : data' = data).
  { pose proof (ft_data _ _ _ _ _ _ T0) as D. unfold fit_data in D. destruct arg as [[d|] [r'|]]; try discriminate E1; injection E1 as <- <- <-; cbn in D.
    - injection D as ->. cbn in E2. now injection E2 as ->.
    - rewrite D in E2. cbn in E2. now injection E2 as ->. }
  subst data' h2. assert (LR : length r0 = W) by (apply (ft_rect _ _ _ _ _ _ T0); apply nth_res_ok in E3; eapply nth_error_In; eauto). rewrite LR.
  rewrite EF. assert (FBU : f_budget f1 = f_budget f) by (rewrite <- EF; reflexivity). clear EF E1 E2 E3 E4 E5 E6.
  destruct (fc_n c) as [|n]; [lia|]. cbn [seq foldM].
  assert (X : fit_tree M P c data W {| fs_f := f1; fs_e := e; fs_h := h1; fs_stop := false |} 0 = Err TypeError); [|rewrite X; reflexivity].
  unfold fit_tree. cbn [fs_stop fs_f fs_h fs_e].
  destruct (subset_total c (length data) W (f_gen f1) (ft_rows _ _ _ _ _ _ T0) (ft_cols _ _ _ _ _ _ T0) (ft_draws _ _ _ _ _ _ T0)) as (rows & feats & gen1 & EDR & NR & LF & NF). rewrite EDR. cbn [rbind].
  assert (BB : match f_budget f1 with Some b => (b <=? 0)%Z | None => false end = false).
  { rewrite FBU. destruct (f_budget f) as [b|]; auto. specialize (BU b eq_refl). apply Z.leb_gt. lia. }
  rewrite BB, S2, S3. cbn [opt_res rbind].
  assert (EB : exists rows2 gen2, (if fc_bootstrap c then choice_repl rows (length data) gen1 else Ok (rows, gen1)) = Ok (rows2, gen2)).
  { destruct (fc_bootstrap c); [now apply choice_repl_total|eauto]. }
  destruct EB as (rows2 & gen2 & EB). rewrite EB. cbn [rbind]. destruct (draw (e_np e)) as [seed np'].
  assert (EL : exists lc, nth_error h1 (if fc_class c then org else if fc_boosting c then new else org) = Some lc /\ labels_fit c data h1 org lc).
  { destruct S4 as (lo & A1 & A2). destruct S5 as (lb & B1 & B2). destruct (fc_boosting c) eqn:BO.
    - destruct (ft_boost _ _ _ _ _ _ T0 BO) as [Q _]. change (fc_class c = false) in Q. rewrite Q. exists lb. split; auto. split; auto. congruence.
    - exists lo. destruct (fc_class c); split; auto; split; auto. }
  destruct EL as (lc & EL & LC). unfold nth_res at 1. rewrite EL. cbn [rbind].
  set (a := {| ta_data := data; ta_labels := la_vals lc; ta_budget := f_budget f1; ta_dd := f_dd f1; ta_seed := seed; ta_idcs := Some rows2; ta_feats := Some feats |}).
  destruct (subset_draw_spec _ _ _ _ _ _ _ EDR) as [D1 [D2 [D3 D4]]].
  assert (RR : (forall i, In i rows2 -> In i rows) /\ (fc_bootstrap c = true -> length rows2 = length data) /\ (fc_bootstrap c = false -> rows2 = rows)).
  { destruct (fc_bootstrap c).
    - apply choice_repl_in in EB. destruct EB as [B1 B2]. split; auto. split; auto. discriminate.
    - apply ok_pair_inv in EB. destruct EB as [<- _]. split; auto. split; auto. discriminate. }
  destruct RR as [RR1 [RR2 RR3]]. pose proof (ft_rows _ _ _ _ _ _ T0) as LD.
  assert (NE : train_rows a <> []).
  { cbn. destruct (fc_bootstrap c) eqn:BS; [|now rewrite RR3]. specialize (RR2 eq_refl). intros ->. cbn in RR2. lia. }
  assert (AO : args_ok c0 data W (f_dd f1) a).
  { constructor; auto. intros [A1 [A2 A3]]. cbn. rewrite (RR3 A1). now apply D4. }
  destruct (S6 lc a LC eq_refl AO LF NF NE (fun A B => proj2 (D4 A B))) as [TR _].
  set (tc := tree_cfg c (f_classes f1) (f_minmax f1)).
  assert (TR' : trainable (with_max_depth tc DInf) a W) by (destruct TR; constructor; assumption).
  destruct (tree_new_total _ _ _ TR' P (set_np e np')) as (t0 & e0 & EN). change (tree_new P (with_max_depth tc DInf) a (set_np e np')) with (tree_new P tc a (set_np e np')) in EN.
  rewrite EN. cbn [rbind fst snd].
  rewrite (no_depth_raises P M tc a W (set_np e np') t0 e0 TR' MD ML EN). reflexivity.
Qed.

(** ** Wrappers fit *)
Lemma trunc_whole z : trunc (Zq z) = Zq z.
Proof.
  assert (F : forall z, qfloor (Zq z) = z).
  { intros k. apply Z.le_antisymm; [apply Zq_le, qfloor_le; lia|apply qfloor_le, Qcle_refl]. }
  unfold trunc. rewrite <- Zq_opp, !F, Z.opp_involutive. destruct (qle _ _); reflexivity.
Qed.

Section Ready.
Context (P : prng) (w : wrapper) (args : kwargs) (h : heap) (e : env) (o : wobj) (h' : heap) (e' : env) (H : construct P w args h e = Ok (o, h', e')).

Lemma fixed_means k v : In (k, v) (actual w) -> k <> Kdata -> k <> Klabels -> k <> Kclasses -> means o k v.
Proof. intros I N1 N2 N3. rewrite <- (actual_attr _ _ _ _ _ _ _ _ H k v I). now apply (attr_means _ _ _ _ _ _ _ _ H). Qed.

Lemma kind : fc_class (wo_cfg o) = w_class w.
Proof. apply (settings_mean _ _ _ (built_settings _ _ _ _ _ _ _ _ H)). Qed.

Lemma never_discrete : fc_make_discrete (wo_cfg o) = false /\ fc_log_split (wo_cfg o) = false /\ fc_batch (wo_cfg o) = 1000.
Proof.
  split; [|split].
  - apply (fixed_means Kmake_discrete (VBool false)); try discriminate. now left.
  - apply (fixed_means Kuse_logarithmic_split (VBool false)); try discriminate. right. now left.
  - assert (X : means o Kbatch_size (VInt 1000)) by (apply fixed_means; try discriminate; do 4 right; now left). cbn in X. lia.
Qed.

Lemma sub_ok : match fc_fsub (wo_cfg o) with FSNone | FSSqrt => True | _ => False end.
Proof.
  pose proof (attr_means _ _ _ _ _ _ _ _ H Kfeature_subsampling ltac:(discriminate) ltac:(discriminate) ltac:(discriminate)) as X.
  assert (A : attribute o Kfeature_subsampling = VNone \/ attribute o Kfeature_subsampling = VSqrt).
  { pose proof (actual_attr _ _ _ _ _ _ _ _ H Kfeature_subsampling) as A. pose proof (constructible _ _ _ _ _ _ _ _ H) as NB.
    clear - A NB. destruct w; cbn [actual app] in A; (exfalso; apply NB; unfold boosted_classifier; tauto) || (left; apply A; do 6 right; left; reflexivity) || (right; apply A; do 6 right; left; reflexivity) || (right; apply A; do 5 right; left; reflexivity). }
  destruct A as [A|A]; rewrite A in X; cbn in X; now rewrite X.
Qed.

Lemma no_classes : attribute o Kclasses = VNone.
Proof.
  pose proof (constructible _ _ _ _ _ _ _ _ H) as NB. rewrite (attr_default _ _ _ _ _ _ _ _ H) by (clear; destruct w; reflexivity). clear. destruct w; reflexivity.
Qed.

Lemma boosting_regression : fc_boosting (wo_cfg o) = true -> fc_class (wo_cfg o) = false /\ fc_lr (wo_cfg o) <> None.
Proof.
  destruct (built_new _ _ _ _ _ _ _ _ H) as (d & l & cl & bu & _ & _ & _ & _ & FN). unfold forest_new in FN.
  apply rbind_ok in FN; destruct FN as [cls [E1 FN]]. cbv zeta in FN.
  apply rbind_ok in FN; destruct FN as [u [E2 FN]]. apply rbind_ok in FN; destruct FN as [u2 [E3 _]]. intros B.
  apply guard_ok in E2, E3. rewrite B in E2, E3. cbn in E2, E3. apply negb_true_iff in E2, E3. split; auto. intros Q. rewrite Q in E2. discriminate E2.
Qed.

Lemma draws_default : w <> HistogramRandomPatchesClassifier -> w <> HistogramRandomPatchesRegressor -> fc_alpha_N (wo_cfg o) = 1%Qc /\ fc_alpha_F (wo_cfg o) = 1%Qc.
Proof.
  intros N1 N2. pose proof (constructible _ _ _ _ _ _ _ _ H) as NB.
  assert (I : In (Kalpha_N, VNum 1%Qc) (actual w) /\ In (Kalpha_F, VNum 1%Qc) (actual w)).
  { clear - N1 N2 NB. destruct w; try contradiction; try (exfalso; apply NB; unfold boosted_classifier; tauto);
      (split; cbn [actual app]; repeat (left; reflexivity || right; fail); clear).
    all: cbn; tauto. }
  destruct I as [I1 I2]. split; [apply (fixed_means Kalpha_N (VNum 1%Qc)); auto; discriminate|apply (fixed_means Kalpha_F (VNum 1%Qc)); auto; discriminate].
Qed.

Lemma ready_trainable n d data W la : fit_ready w o h' data W la -> d <> DNone -> forest_trainable (forest_with (wo_cfg o) n d (fc_bin (wo_cfg o))) (wo_forest o) (None, None) h' data W.
Proof.
  intros [R1 (r & R2 & R3) R4 R5 R6 R7 R8 R9 R10] ND.
  destruct (built_new _ _ _ _ _ _ _ _ H) as (dt & l & cl & bu & B1 & B2 & B3 & B4 & FN). rewrite no_classes in B4. injection B4 as <-.
  pose proof (new_shape _ _ _ _ _ _ _ _ _ _ FN) as (S1 & S2 & S3 & _ & _ & _ & S7 & S8 & _). pose proof kind as K.
  assert (LQ : l = Some r) by congruence. rewrite LQ in FN, S3.
  constructor; cbn [forest_with fc_class fc_alpha_N fc_alpha_F fc_fsub fc_max_depth fc_max_leaves fc_boosting fc_lr fc_precomp_minmax fst snd fit_data]; auto.
  - tauto.
  - exists r, r, la, la. cbn. split; auto. split; [congruence|]. split; auto. split; auto. split; auto. split; auto. intros IC y I.
    destruct (new_classes _ _ _ _ _ _ _ _ _ IC FN) as (la' & L1 & _ & _ & _ & L2). assert (la' = la) by congruence. subst la'. apply L2.
    destruct (R8 ltac:(congruence) y I) as [z ->]. now rewrite trunc_whole.
  - intros IC k i I. destruct (new_classes _ _ _ _ _ _ _ _ _ IC FN) as (la' & _ & G & _). destruct G as (_ & _ & G). now apply (G k i).
  - intros Q. assert (DC : w = HistogramRandomPatchesClassifier \/ w = HistogramRandomPatchesRegressor \/ (w <> HistogramRandomPatchesClassifier /\ w <> HistogramRandomPatchesRegressor)) by (clear; destruct w; auto; right; right; split; discriminate).
    destruct DC as [DC|[DC|[DC1 DC2]]]; [apply R10; auto|apply R10; auto|]. destruct (draws_default DC1 DC2) as [A1 A2]. rewrite A1, A2 in Q. discriminate Q.
  - pose proof sub_ok as S. destruct (fc_fsub (wo_cfg o)); tauto.
  - intros Q. apply R9. pose proof (attr_means _ _ _ _ _ _ _ _ H Kmax_leaf_nodes ltac:(discriminate) ltac:(discriminate) ltac:(discriminate)) as X.
    cbn in X. destruct (attribute o Kmax_leaf_nodes); try contradiction; try congruence. destruct X as (x & H0 & <-). assert (x = 0) by congruence. now subst x.
  - apply boosting_regression.
  - rewrite S7. exact I.
Qed.
End Ready.

Lemma forest_with_id c : forest_with c (fc_n c) (fc_max_depth c) (fc_bin c) = c.
Proof. now destruct c. Qed.

Lemma depth_given P w args h e o h' e' : construct P w args h e = Ok (o, h', e') -> attribute o Kmax_depth = VNone <-> fc_max_depth (wo_cfg o) = DNone.
Proof.
  intros H. pose proof (attr_means _ _ _ _ _ _ _ _ H Kmax_depth ltac:(discriminate) ltac:(discriminate) ltac:(discriminate)) as X. cbn in X.
  destruct (attribute o Kmax_depth); try contradiction; split; intros Q; try discriminate Q; congruence.
Qed.

Lemma wrapper_no_depth M P w args h e o h' e' data W la : construct P w args h e = Ok (o, h', e') -> fit_ready w o h' data W la ->
  attribute o Kmax_depth = VNone -> attribute o Kmax_leaf_nodes <> VInt 1 -> attribute o Kn_estimators <> VInt 0 ->
  (forall b, attribute o Kbudget = VInt b -> (0 < b)%Z) ->
  forest_fit M P (wo_cfg o) (wo_forest o) (None, None) h' e' = Err TypeError.
Proof.
  intros H R D L N B. apply (forest_no_depth M P (wo_cfg o) (wo_forest o) (None, None) h' e' data W).
  - apply (ready_trainable _ _ _ _ _ _ _ _ H _ _ _ _ _ R). discriminate.
  - apply (never_discrete _ _ _ _ _ _ _ _ H).
  - now apply (depth_given _ _ _ _ _ _ _ _ H).
  - intros Q. apply L. pose proof (attr_means _ _ _ _ _ _ _ _ H Kmax_leaf_nodes ltac:(discriminate) ltac:(discriminate) ltac:(discriminate)) as X. cbn in X.
    destruct (attribute o Kmax_leaf_nodes); try contradiction; try congruence. destruct X as (x & H0 & <-). assert (x = 1) by congruence. now subst x.
  - pose proof (attr_means _ _ _ _ _ _ _ _ H Kn_estimators ltac:(discriminate) ltac:(discriminate) ltac:(discriminate)) as X. cbn in X.
    destruct (attribute o Kn_estimators); try contradiction. destruct (fc_n (wo_cfg o)); [|lia]. exfalso; apply N; f_equal; cbn in X; lia.
  - intros b Q. apply B. pose proof (attr_means _ _ _ _ _ _ _ _ H Kbudget ltac:(discriminate) ltac:(discriminate) ltac:(discriminate)) as X. cbn in X.
    destruct (attribute o Kbudget); try contradiction; try congruence.
Qed.

Lemma wrapper_fits M P w args h e o h' e' data W la m : construct P w args h e = Ok (o, h', e') -> fit_ready w o h' data W la ->
  attribute o Kmax_depth <> VNone -> enough_thresholds w o data (la_vals la) W m ->
  (attribute o Ksolver = VSolver EXACT /\ m = 2 \/ attribute o Ksolver = VSolver MAB /\ w_class w = true /\ attribute o Kbin_type <> VBin IDENTITY /\ m = 6) ->
  exists f' h2 e2, forest_fit M P (wo_cfg o) (wo_forest o) (None, None) h' e' = Ok (f', h2, e2).
Proof.
  intros H R D ET SV. pose proof (ready_trainable _ _ _ _ _ _ _ _ H (fc_n (wo_cfg o)) (fc_max_depth (wo_cfg o)) data W la R) as T. rewrite forest_with_id in T.
  assert (ND : fc_max_depth (wo_cfg o) <> DNone) by (intros Q; apply D; now apply (depth_given _ _ _ _ _ _ _ _ H)). specialize (T ND).
  assert (BT : means o Kbin_type (attribute o Kbin_type)) by (apply (attr_means _ _ _ _ _ _ _ _ H); discriminate).
  apply (forest_fits M P _ _ _ _ e' data W la m T).
  - destruct (fr_labels _ _ _ _ _ _ R) as (r & A & B). exists r. auto.
  - destruct (never_discrete _ _ _ _ _ _ _ _ H) as (_ & LG & _). pose proof (kind _ _ _ _ _ _ _ _ H) as K.
    pose proof (fixed_means _ _ _ _ _ _ _ _ H) as FM. pose proof (attr_means _ _ _ _ _ _ _ _ H Knum_bins ltac:(discriminate) ltac:(discriminate) ltac:(discriminate)) as NB.
    assert (NB2 : (exists z, attribute o Knum_bins = VInt z /\ (Z.of_nat m <= z)%Z) -> m <= fc_nb (wo_cfg o)).
    { intros (z & Q & L). rewrite Q in NB. cbn in NB. lia. }
    assert (BI : forall b, In (Kbin_type, VBin b) (actual w) -> fc_bin (wo_cfg o) = b) by (intros b I; apply (FM Kbin_type (VBin b)); auto; discriminate).
    assert (PM : forall b, In (Kis_precomputed_minmax, VBool b) (actual w) -> fc_precomp_minmax (wo_cfg o) = b) by (intros b I; apply (FM Kis_precomputed_minmax (VBool b)); auto; discriminate).
    unfold forest_bins. rewrite LG.
    destruct w; cbn [enough_thresholds w_class] in *; try destruct ET;
      first [rewrite (BI IDENTITY) by (cbn; tauto); split; [intros [Q|Q]; discriminate Q|exact I]
            |rewrite (BI RANDOM) by (cbn; tauto); split; [intros _; apply NB2; eauto|exact I]
            |rewrite (BI LINEAR) by (cbn; tauto); rewrite (PM true) by (cbn; tauto); split; [intros _; now apply NB2|assumption]
            |idtac].
    rewrite (BI LINEAR) by (cbn; tauto); rewrite (PM false) by (cbn; tauto). split; [intros _; now apply NB2|]. destruct H1 as (A & B & C).
    rewrite K. split; [apply (FM Kfeature_subsampling VNone); [cbn; tauto|discriminate..]|]. split; auto. split; auto. split; [apply (FM Kboosting (VBool false)); [cbn; tauto|discriminate..]|exact C].
  - pose proof (attr_means _ _ _ _ _ _ _ _ H Ksolver ltac:(discriminate) ltac:(discriminate) ltac:(discriminate)) as X. cbn in X. destruct SV as [[Q ->]|(Q & IC & NI & ->)]; rewrite Q in X; [now left|right].
    rewrite (kind _ _ _ _ _ _ _ _ H). destruct (never_discrete _ _ _ _ _ _ _ _ H) as (_ & _ & BA). split; auto. split; auto. split; [rewrite BA; apply Nat.leb_le; reflexivity|]. split; auto.
    intros Q2. apply NI. destruct (attribute o Kbin_type); try contradiction. cbn in BT. congruence.
Qed.

(** Proper calls of the wrapper constructors succeed. *)
From Coq Require Import List Arith Bool ZArith QArith Qcanon Lia Permutation.
From Verif Require Import Base Num Rng Histogram Utils Criteria Solvers Tree Forest Wrappers Spec SolverSpec TreeSpec ForestSpec WrapSpec.
From Verif Require Import NumFacts ListFacts DrawFacts TreeFacts TreeTotal ForestTotal WrapFacts WrapLife.
Import ListNotations.
Local Open Scope nat_scope.

Definition isok {A} (r : res A) : bool := match r with Ok _ => true | Err _ => false end.
Lemma isok_ex {A} (r : res A) : isok r = true -> exists a, r = Ok a.
Proof. destruct r; [eauto|discriminate]. Qed.

(** Whether the value of an option can be used. *)
Definition usable (b : bintype) (k : kw) (v : pyval) : bool :=
  match k with
  | Kn_estimators | Kmin_samples_split | Krandom_state | Kbatch_size => isok (as_nat v)
  | Kmax_depth => isok (as_depth v)
  | Kbootstrap | Kwith_replacement | Kboosting | Kmake_discrete | Kis_precomputed_minmax | Kuse_logarithmic_split | Kuse_dynamic_epsilon | Koob_score => isok (as_bool v)
  | Kfeature_subsampling => isok (as_sub v)
  | Kmin_impurity_decrease | Kepsilon | Kalpha_N | Kalpha_F => isok (as_num v)
  | Kmax_leaf_nodes => isok (as_opt as_nat v)
  | Kbin_type => isok (as_bin v)
  | Knum_bins => isok (as_bins b v)
  | Kcriterion => isok (as_measure v)
  | Ksplitter => isok (as_splitter v)
  | Ksolver => isok (as_solver v)
  | Kboosting_lr => isok (as_opt as_num v)
  | Kbudget => isok (as_opt as_int v)
  | Kclasses => isok (as_opt as_dict v)
  | Kdata => isok (as_opt as_table v)
  | Klabels => isok (as_opt as_arr v)
  | Kverbose => true
  end.
Definition bin_of (p : kwargs) : bintype := match param Kbin_type p VNone with VBin b => b | _ => BOther end.

Lemma settings_total ic p : (forall k, usable (bin_of p) k (param k p VNone) = true) -> exists c, settings ic p = Ok c.
Proof.
  intros U. unfold settings. cbv zeta.
  Ltac step U k := let x := fresh "x" in let E := fresh "E" in destruct (isok_ex _ (U k)) as [x E]; rewrite E; cbn [rbind].
  step U Kn_estimators. step U Kmax_depth. step U Kbootstrap. step U Kfeature_subsampling. step U Kmin_samples_split. step U Kmin_impurity_decrease.
  step U Kmax_leaf_nodes. pose proof (U Kbin_type) as Q. destruct (isok_ex _ Q) as [b Eb]. rewrite Eb. cbn [rbind].
  assert (BB : bin_of p = b) by (unfold bin_of; destruct (param Kbin_type p VNone); try discriminate Eb; now injection Eb). rewrite BB in U.
  step U Knum_bins. step U Kcriterion. step U Ksplitter. step U Ksolver. step U Krandom_state. step U Kwith_replacement. step U Kboosting. step U Kboosting_lr.
  step U Kmake_discrete. step U Kis_precomputed_minmax. step U Kuse_logarithmic_split. step U Kuse_dynamic_epsilon. step U Kepsilon. step U Koob_score. step U Kbatch_size.
  step U Kalpha_N. step U Kalpha_F. eauto.
Qed.

Lemma typed_usable b k v : well_typed k v -> usable b k v = true.
Proof.
  intros T. destruct k, v; cbn in T; try contradiction; try reflexivity; cbn;
    repeat match goal with |- context [(?z <? 0)%Z] => destruct (Z.ltb_spec z 0); [lia|] end; try reflexivity;
    destruct b; cbn; repeat match goal with |- context [(?z <? 0)%Z] => destruct (Z.ltb_spec z 0); [lia|] end; reflexivity.
Qed.

Lemma super_bind w p : ~ boosted_classifier w -> exists q, bind (class_sig (w_class w)) (super_args w p) = Ok q.
Proof.
  intros NB. destruct w; try (exfalso; apply NB; unfold boosted_classifier; tauto); eexists; reflexivity.
Qed.

(** The value super().__init__ stores for an option. *)
Lemma stored w p q : bind (class_sig (w_class w)) (super_args w p) = Ok q -> forall k,
  param k (q ++ base_defaults) VNone = match aget k (common_pass ++ extra_pass w) with Some a => eval_arg p a | None => param k (class_sig (w_class w) ++ base_defaults) VNone end.
Proof.
  intros B k. pose proof (bind_ok _ _ _ B) as (_ & K1 & K2). unfold param. rewrite !kget_app. unfold super_args in *.
  destruct (kget k (class_sig (w_class w))) as [d|] eqn:E.
  - rewrite (K1 _ _ E), kget_eval. destruct (aget k (common_pass ++ extra_pass w)); reflexivity.
  - destruct (K2 _ E) as [-> A]. rewrite kget_eval in A. destruct (aget k (common_pass ++ extra_pass w)); [discriminate A|reflexivity].
Qed.

Lemma once_distinct args : NoDup (map fst args) -> distinct_keys args = true.
Proof.
  induction args as [|[k v] l IH]; cbn; intros N; [reflexivity|]. apply NoDup_cons_iff in N. destruct N as [N1 N2]. rewrite (IH N2).
  destruct (kget k l) eqn:E; [|reflexivity]. apply kget_in in E. exfalso. apply N1. change k with (fst (k, p)). now apply in_map.
Qed.

Lemma accepts_sig w k : ~ boosted_classifier w -> (accepts w k <-> kget k (w_sig w) <> None).
Proof.
  intros NB. unfold accepts. split.
  - intros A. destruct w; try (exfalso; apply NB; unfold boosted_classifier; tauto);
      (destruct A as [->|[->|[A|[A1 A2]]]]; [discriminate|discriminate| |]);
      try (cbn in A; repeat (destruct A as [<-|A]; [discriminate|]); destruct A);
      try (destruct A2 as [->| ->]; try discriminate; destruct A1 as [A1|[A1|[A1|A1]]]; discriminate A1).
  - intros A. destruct w; try (exfalso; apply NB; unfold boosted_classifier; tauto); destruct k; try (exfalso; apply A; reflexivity); cbn; try tauto; right; right; right; split; try tauto; unfold patched; tauto.
Qed.

Lemma well_typed_not_none k v : well_typed k v -> v = VNone -> k = Kmax_leaf_nodes \/ k = Kbudget \/ k = Kmax_depth.
Proof. intros T ->. destruct k; cbn in T; tauto. Qed.
Lemma num_typed v q : num_value v q -> as_num v = Ok q.
Proof. intros [->|(z & -> & ->)]; reflexivity. Qed.

Lemma ceil_choice_total n alpha gen : (0 <= alpha)%Qc -> (alpha <= 1)%Qc -> exists l g, ceil_choice n alpha gen = Ok (l, g).
Proof.
  intros A B. unfold ceil_choice. pose proof (Nq_nonneg n) as NN.
  assert (Z1 : (-1 < qceil (alpha * Nq n)%Qc)%Z). { apply qceil_lt. assert (0 <= alpha * Nq n)%Qc by qnra. change (Zq (-1)) with (-(1))%Qc. qlra. }
  assert (Z2 : (qceil (alpha * Nq n)%Qc <= Z.of_nat n)%Z). { apply qceil_le. fold (Nq n). qnra. }
  destruct (Z.ltb_spec (qceil (alpha * Nq n)%Qc) 0); [lia|]. unfold choice_norepl. assert (LA : length (arange n) = n) by apply seq_length. rewrite LA.
  destruct (Nat.ltb_spec n (Z.to_nat (qceil (alpha * Nq n)%Qc))); [lia|]. destruct (pick_k _ _ gen) as [l g]. eauto.
Qed.

Lemma subset_2d_total X W I J : rectangular W X -> (forall i, In i I -> i < length X) -> (forall j, In j J -> j < W) -> exists s, get_subset_2d X I J = Ok s.
Proof.
  intros RC LI LJ. unfold get_subset_2d. apply mapM_total. intros i Ii. destruct (nth_res_lt X i (LI i Ii)) as [r E]. rewrite E. cbn [rbind].
  apply mapM_total. intros j Ij. apply nth_res_lt. apply nth_res_ok in E. rewrite (RC r) by (eapply nth_error_In; eauto). auto.
Qed.

Section Proper.
Context (P : prng) (w : wrapper) (args : kwargs) (h : heap) (e : env) (NB : ~ boosted_classifier w) (PC : proper_call w args h).

Lemma got k v : passes args k v -> kget k args = Some v.
Proof. intros I. apply kget_distinct; auto. apply once_distinct, (pc_once _ _ _ PC). Qed.

Lemma bound : exists p, bind (w_sig w) args = Ok p.
Proof.
  apply bind_total; [apply once_distinct, (pc_once _ _ _ PC)|]. intros k v I. apply (accepts_sig w k NB). now apply (pc_known _ _ _ PC k v).
Qed.

Lemma value_passed p k v : bind (w_sig w) args = Ok p -> passes args k v -> param k p VNone = v.
Proof.
  intros B I. pose proof (bind_ok _ _ _ B) as (_ & K1 & K2). unfold param. destruct (kget k (w_sig w)) as [d|] eqn:E.
  - rewrite (K1 _ _ E), (got k v I). reflexivity.
  - destruct (K2 _ E) as [_ N]. rewrite (got k v I) in N. discriminate N.
Qed.

Lemma value_kind p k d : bind (w_sig w) args = Ok p -> kget k (w_sig w) = Some d -> param k p VNone = d /\ kget k args = None \/ well_typed k (param k p VNone) /\ passes args k (param k p VNone).
Proof.
  intros B E. rewrite (bound_param _ _ _ _ _ B E). destruct (kget k args) as [v|] eqn:G; [right|left; auto]. apply kget_in in G. split; auto. now apply (pc_known _ _ _ PC k v).
Qed.

Lemma prepared p : bind (w_sig w) args = Ok p -> exists p' fe h', prepare P w p h = Ok (p', fe, h') /\
  (forall k, k <> Kdata -> k <> Klabels -> param k p' VNone = param k p VNone) /\
  isok (as_opt as_table (param Kdata p' VNone)) = true /\ (exists x, as_opt as_arr (param Klabels p' VNone) = Ok x /\ match x with None => True | Some r => r < length h' end).
Proof.
  intros B.
  assert (DT : isok (as_opt as_table (param Kdata p VNone)) = true).
  { destruct (value_kind p Kdata VNone B eq_refl) as [[-> _]|[T _]]; [reflexivity|]. destruct (param Kdata p VNone); try contradiction. reflexivity. }
  assert (LB : exists x, as_opt as_arr (param Klabels p VNone) = Ok x /\ match x with None => True | Some r => r < length h end).
  { destruct (value_kind p Klabels VNone B eq_refl) as [[-> _]|[T I]]; [exists None; auto|]. destruct (param Klabels p VNone); try contradiction. exists (Some r). split; [reflexivity|]. now apply (pc_labels _ _ _ PC). }
  assert (Q : ~ patched w -> prepare P w p h = Ok (p, None, h)).
  { intros NP. unfold prepare.
    destruct (w_prep w) eqn:WP; [reflexivity| | |exfalso; destruct w; try discriminate WP; first [apply NP; unfold patched; tauto|apply NB; unfold boosted_classifier; tauto]].
    - assert (BR : boosted_regressor w) by (unfold boosted_regressor; clear - WP; destruct w; try discriminate WP; tauto).
      destruct (pc_lr _ _ _ PC BR) as [v I]. unfold given. rewrite (value_passed p _ _ B I). destruct (pc_known _ _ _ PC _ _ I) as [_ T]. destruct v; try contradiction; reflexivity.
    - assert (G : forall k, k = Kalpha_N \/ k = Kalpha_F -> given k p = true).
      { intros k KK. assert (E : kget k (w_sig w) = Some (VNum 1%Qc)) by (clear - WP KK; destruct w; try discriminate WP; destruct KK as [->| ->]; reflexivity).
        unfold given. destruct (value_kind p k _ B E) as [[-> _]|[T _]]; [reflexivity|]. destruct KK as [->| ->]; [destruct (param Kalpha_N p VNone)|destruct (param Kalpha_F p VNone)]; try contradiction; reflexivity. }
      rewrite !G by auto. reflexivity. }
  assert (DP : patched w \/ ~ patched w) by (clear; unfold patched; destruct w; (right; intuition discriminate) || tauto).
  destruct DP as [PW|NP].
  2:{ rewrite (Q NP). exists p, None, h. auto. }
  clear Q. destruct (pc_patch _ _ _ PC PW) as (X & W & r & la & vN & aN & vF & aF & P1 & P2 & P3 & P4 & P5 & P6 & P7 & P8 & P9 & P10 & P11 & P12 & P13 & P14).
  assert (WP : w_prep w = PPatch) by (clear - PW; destruct PW as [->|[->|[->| ->]]]; reflexivity).
  unfold prepare. rewrite WP. unfold given. rewrite (value_passed p _ _ B P7), (value_passed p _ _ B P9).
  assert (G : guard ((match vN with VNone => false | _ => true end) && (match vF with VNone => false | _ => true end)) GenericException = Ok tt).
  { destruct P8 as [->|(z & -> & _)]; destruct P10 as [->|(z' & -> & _)]; reflexivity. }
  rewrite G. cbn [rbind]. unfold patch. rewrite (value_passed p _ _ B P1), (value_passed p _ _ B P4), (value_passed p _ _ B P7), (value_passed p _ _ B P9).
  cbn [as_opt as_table as_arr rbind opt_res]. destruct X as [|x0 X]; [contradiction|]. cbn [nth_res nth_error rbind].
  assert (SE : exists seed, as_nat (param Krandom_state p VNone) = Ok seed).
  { destruct (value_kind p Krandom_state (VInt 0) B eq_refl) as [[-> _]|[T _]]; [eexists; reflexivity|]. destruct (isok_ex _ (typed_usable IDENTITY _ _ T)) as [s ES]. eauto. }
  destruct SE as [seed ->]. cbn [rbind]. rewrite (num_typed _ _ P8). cbn [rbind].
  destruct (ceil_choice_total (length (x0 :: X)) aN (seed_gen P seed) P11 P12) as (I & g1 & E1). rewrite E1. cbn [rbind snd fst]. rewrite (num_typed _ _ P10). cbn [rbind].
  destruct (ceil_choice_total (length x0) aF g1 P13 P14) as (J & g2 & E2). rewrite E2. cbn [rbind snd fst]. apply ceil_choice_ok in E1, E2. destruct E1 as (_ & E1 & _). destruct E2 as (_ & E2 & _).
  assert (LW : length x0 = W) by (apply P3; now left).
  destruct (subset_2d_total (x0 :: X) W I J P3 E1) as [s ES]; [now rewrite <- LW|]. rewrite ES. cbn [rbind]. unfold nth_res at 1. rewrite P5. cbn [rbind].
  destruct (take_idx_total (la_vals la) I) as [ls EL]. { intros i Ii. rewrite P6. auto. } rewrite EL. cbn [rbind].
  do 3 eexists. split; [reflexivity|]. split.
  - intros k N1 N2. unfold param. rewrite kget_app. cbn. destruct (kw_eqb k Kdata) eqn:K1; [now apply kw_eqb_eq in K1|]. destruct (kw_eqb k Klabels) eqn:K2; [now apply kw_eqb_eq in K2|]. reflexivity.
  - split; [reflexivity|]. exists (Some (length h)). split; [reflexivity|]. rewrite app_length. cbn. lia.
Qed.

Lemma constructs : exists o h' e', construct P w args h e = Ok (o, h', e').
Proof.
  destruct bound as [p B]. destruct (prepared p B) as (p' & fe & h' & PR & PV & DT & (x & LX & LB)).
  destruct (super_bind w p' NB) as [q BQ].
  assert (ST := stored w p' q BQ).
  assert (PK : forall k d, k <> Kdata -> k <> Klabels -> kget k (w_sig w) = Some d -> param k p' VNone = d \/ well_typed k (param k p' VNone)).
  { intros k d N1 N2 E. rewrite (PV k N1 N2). destruct (value_kind p k d B E) as [[-> _]|[T _]]; auto. }
  assert (NBS : w = GBExtremelyRandomForestRegressor -> well_typed Knum_bins (param Knum_bins p' VNone)).
  { intros W. rewrite (PV Knum_bins) by discriminate. destruct (pc_bins _ _ _ PC W) as [v I]. rewrite (value_passed p _ _ B I). now apply (pc_known _ _ _ PC Knum_bins v). }
  assert (LRS : boosted_regressor w -> well_typed Kboosting_lr (param Kboosting_lr p' VNone)).
  { intros W. rewrite (PV Kboosting_lr) by discriminate. destruct (pc_lr _ _ _ PC W) as [v I]. rewrite (value_passed p _ _ B I). now apply (pc_known _ _ _ PC Kboosting_lr v). }
  assert (US : forall k, usable (bin_of (q ++ base_defaults)) k (param k (q ++ base_defaults) VNone) = true).
  { intros k. rewrite ST. assert (BO : bin_of (q ++ base_defaults) = match aget Kbin_type (common_pass ++ extra_pass w) with Some (Fix (VBin b)) => b | _ => BOther end).
    { unfold bin_of. rewrite ST. clear - NB. destruct w; try reflexivity; exfalso; apply NB; unfold boosted_classifier; tauto. }
    rewrite BO. clear BO ST BQ PV PR B.
    destruct (kw_eqb k Kdata) eqn:K1; [apply kw_eqb_eq in K1; subst k; exact DT|].
    destruct (kw_eqb k Klabels) eqn:K2; [apply kw_eqb_eq in K2; subst k; cbn; rewrite LX; reflexivity|].
    assert (N1 : k <> Kdata) by (intros ->; rewrite (proj2 (kw_eqb_eq _ _) eq_refl) in K1; discriminate). assert (N2 : k <> Klabels) by (intros ->; rewrite (proj2 (kw_eqb_eq _ _) eq_refl) in K2; discriminate).
    clear K1 K2. specialize (fun d => PK k d N1 N2).
    destruct (aget k (common_pass ++ extra_pass w)) as [[k'|v]|] eqn:A; cbn [eval_arg].
    - assert (k' = k). { clear - A. destruct w, k; cbn in A; try discriminate A; now injection A. } subst k'.
      destruct w; try (exfalso; apply NB; unfold boosted_classifier; tauto); destruct k; try discriminate A; try contradiction;
        try (match type of PK with forall d, kget ?kk ?s = Some d -> _ => let r := eval cbn in (kget kk s) in match r with Some ?d => destruct (PK d eq_refl) as [Q|Q] end end; [rewrite Q; reflexivity|now apply typed_usable]);
        try (apply typed_usable; apply NBS; reflexivity); try (apply typed_usable; apply LRS; unfold boosted_regressor; tauto).
    - clear - A NB. destruct w; try (exfalso; apply NB; unfold boosted_classifier; tauto); destruct k; cbn in A; try discriminate A; injection A as <-; reflexivity.
    - clear - A NB. destruct w; try (exfalso; apply NB; unfold boosted_classifier; tauto); destruct k; cbn in A; try discriminate A; reflexivity. }
  unfold construct. rewrite B. cbn [rbind]. rewrite PR. cbn [rbind]. fold (super_args w p'). unfold forest_class. rewrite BQ. cbn [rbind]. cbv zeta.
  destruct (settings_total (w_class w) _ US) as [c EC]. rewrite EC. cbn [rbind].
  destruct (isok_ex _ (US Kdata)) as [dt ED]. rewrite ED. cbn [rbind].
  assert (EL : as_opt as_arr (param Klabels (q ++ base_defaults) VNone) = Ok x) by (rewrite ST; exact LX). rewrite EL. cbn [rbind].
  destruct (isok_ex _ (US Kclasses)) as [cl ECL]. rewrite ECL. cbn [rbind].
  destruct (isok_ex _ (US Kbudget)) as [bu EBU]. rewrite EBU. cbn [rbind].
  destruct (settings_mean _ _ _ EC) as [IC MN]. specialize (MN (wo_forest {| wo_attrs := []; wo_cfg := c; wo_forest := {| f_data := None; f_org := None; f_new := None; f_trees := []; f_classes := []; f_ncl := 0; f_dd := None; f_minmax := None; f_budget := None; f_queries := 0; f_oob := []; f_mdg := None; f_gen := [] |}; wo_feats := None |}) None).
  assert (OK1 : forall k, k <> Kdata -> k <> Klabels -> k <> Kclasses -> k <> Kbudget -> option_kw k) by (intros k A1 A2 A3 A4; repeat split; auto).
  assert (BO := MN Kboosting (OK1 Kboosting ltac:(discriminate) ltac:(discriminate) ltac:(discriminate) ltac:(discriminate))).
  assert (LR := MN Kboosting_lr (OK1 Kboosting_lr ltac:(discriminate) ltac:(discriminate) ltac:(discriminate) ltac:(discriminate))).
  assert (OB := MN Koob_score (OK1 Koob_score ltac:(discriminate) ltac:(discriminate) ltac:(discriminate) ltac:(discriminate))).
  rewrite ST in BO, LR, OB. unfold forest_new. rewrite IC.
  match goal with |- context [rbind (if w_class w then ?a else ?b) _] => assert (CL : exists cls, (if w_class w then a else b) = Ok cls) end.
  { destruct (w_class w); [|eauto]. destruct cl; [eauto|]. destruct x as [r|]; [|eauto]. destruct (nth_res_lt h' r LB) as [a ->]. cbn. eauto. }
  destruct CL as [cls ->]. cbn [rbind]. cbv zeta.
  assert (OF : fc_oob c = false) by (clear - OB NB; destruct w; try (exfalso; apply NB; unfold boosted_classifier; tauto); exact OB). rewrite OF.
  assert (BR : fc_boosting c = true -> w_class w = false /\ fc_lr c <> None).
  { intros Q. assert (BW : boosted_regressor w) by (clear - BO NB Q; destruct w; try (change (fc_boosting c = false) in BO; congruence); unfold boosted_regressor; (exfalso; apply NB; unfold boosted_classifier; tauto) || tauto).
    specialize (LRS BW). split; [clear - BW; destruct BW as [->|[->|[->|[->| ->]]]]; reflexivity|].
    assert (AG : aget Kboosting_lr (common_pass ++ extra_pass w) = Some (Par Kboosting_lr)) by (clear - BW; destruct BW as [->|[->|[->|[->| ->]]]]; reflexivity).
    rewrite AG in LR. cbn [eval_arg] in LR. destruct (param Kboosting_lr p' VNone); try contradiction; cbn in LR; congruence. }
  destruct (fc_boosting c).
  - destruct (BR eq_refl) as [-> NL]. destruct (fc_lr c); [|contradiction]. cbn. eauto.
  - cbn. eauto.
Qed.
End Proper.

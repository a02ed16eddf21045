(** The keyword settings of ForestClassifier and ForestRegressor. *)
From Coq Require Import List Arith Bool ZArith QArith Qcanon Lia Permutation.
From Verif Require Import Base Num Rng Histogram Utils Criteria Solvers Tree Forest Samples Wrappers Spec SolverSpec TreeSpec ForestSpec WrapSpec.
From Verif Require Import NumFacts ListFacts DrawFacts ForestRun ForestWitness WrapFacts WrapTotal.
Import ListNotations.
Local Open Scope nat_scope.

Lemma options_sig cl k d : In (k, d) (forest_options cl) -> kget k (class_sig cl) = Some d /\ k <> Kdata /\ k <> Klabels /\ k <> Kclasses.
Proof. intros I. destruct cl; cbn in I; repeat (destruct I as [I|I]; [injection I as <- <-; cbn; repeat split; discriminate|]); destruct I. Qed.

Lemma sig_accepts cl k : forest_accepts cl k <-> kget k (class_sig cl) <> None.
Proof.
  split.
  - intros [->|[->|[[-> ->]|I]]]; [destruct cl; discriminate|destruct cl; discriminate|discriminate|].
    apply in_map_iff in I. destruct I as ([k' d] & <- & I). cbn [fst]. rewrite (proj1 (options_sig _ _ _ I)). discriminate.
  - intros H. unfold forest_accepts. destruct cl, k; cbn in *; tauto.
Qed.

Section Made.
  Variables (P : prng) (cl : bool) (args : kwargs) (h : heap) (e : env) (attrs : kwargs) (c : fcfg) (f : forest) (e' : env).
  Hypothesis H : forest_class P cl args h e = Ok (attrs, c, f, e').
  Let o := {| wo_attrs := attrs; wo_cfg := c; wo_forest := f; wo_feats := None |}.

  Lemma made_attr k d : kget k (class_sig cl) = Some d -> attribute o k = match kget k args with Some v => v | None => d end.
  Proof.
    intros E. apply forest_class_ok in H. destruct H as (p & dt & la & cs & bu & B & -> & _).
    destruct (bind_ok _ _ _ B) as (_ & K1 & _). unfold attribute, o. cbn [wo_attrs]. rewrite kget_app, (K1 _ _ E). reflexivity.
  Qed.

  Lemma made_distinct : distinct_keys args = true.
  Proof. apply forest_class_ok in H. destruct H as (p & dt & la & cs & bu & B & _). exact (proj1 (bind_ok _ _ _ B)). Qed.

  Lemma made_means k : k <> Kdata -> k <> Klabels -> k <> Kclasses -> means o k (attribute o k).
  Proof.
    intros N1 N2 N3. apply forest_class_ok in H. destruct H as (p & dt & la & cs & bu & B & A & S & _ & _ & _ & BU & FN).
    destruct (kw_eqb k Kbudget) eqn:KB.
    - apply kw_eqb_eq in KB. subst k. apply new_shape in FN. change (param Kbudget attrs VNone) with (attribute o Kbudget) in BU. cbn.
      destruct (attribute o Kbudget); try discriminate BU; injection BU as <-; intuition.
    - apply (proj2 (settings_mean _ _ _ S) f None k). repeat split; auto. intros ->. rewrite (proj2 (kw_eqb_eq _ _) eq_refl) in KB. discriminate KB.
  Qed.

  Lemma made_settings : fc_class c = cl /\
    (forall k d, In (k, d) (forest_options cl) -> (forall v, passes args k v -> attribute o k = v /\ means o k v) /\ ((forall v, ~ passes args k v) -> attribute o k = d /\ means o k d)) /\
    (cl = true -> fc_boosting c = false) /\
    (forall X, passes args Kdata (VTable X) -> f_data f = Some X) /\ ((forall v, ~ passes args Kdata v) -> f_data f = None) /\
    (forall r, passes args Klabels (VArr r) -> f_org f = Some r /\ f_new f = Some r) /\ ((forall v, ~ passes args Klabels v) -> f_org f = None /\ f_new f = None).
  Proof.
    assert (AV : forall k d, kget k (class_sig cl) = Some d -> (forall v, passes args k v -> attribute o k = v) /\ ((forall v, ~ passes args k v) -> attribute o k = d)).
    { intros k d E. pose proof (made_attr _ _ E) as A. split.
      - intros v I. rewrite (kget_distinct _ _ _ made_distinct I) in A. exact A.
      - intros N. destruct (kget k args) as [v|] eqn:G; [destruct (N v (kget_in _ _ _ G))|exact A]. }
    pose proof H as HH. apply forest_class_ok in HH. destruct HH as (p & dt & la & cs & bu & B & A & S & D & L & _ & _ & FN).
    apply new_shape in FN. destruct FN as (F1 & F2 & F3 & _).
    change (param Kdata attrs VNone) with (attribute o Kdata) in D. change (param Klabels attrs VNone) with (attribute o Klabels) in L.
    split; [exact (proj1 (settings_mean _ _ _ S))|]. split.
    - intros k d I. destruct (options_sig _ _ _ I) as (E & N1 & N2 & N3). destruct (AV _ _ E) as [A1 A2]. split.
      + intros v G. pose proof (A1 v G) as Q. split; [exact Q|]. rewrite <- Q. now apply made_means.
      + intros G. pose proof (A2 G) as Q. split; [exact Q|]. rewrite <- Q. now apply made_means.
    - split.
      + intros Ecl. assert (Q : attribute o Kboosting = VBool false).
        { unfold attribute, o. cbn [wo_attrs]. rewrite A, kget_app. destruct (bind_ok _ _ _ B) as (_ & _ & K2). destruct (K2 Kboosting ltac:(rewrite Ecl; reflexivity)) as [-> _]. reflexivity. }
        pose proof (made_means Kboosting ltac:(discriminate) ltac:(discriminate) ltac:(discriminate)) as MM. rewrite Q in MM. exact MM.
      + destruct (AV Kdata VNone ltac:(destruct cl; reflexivity)) as [D1 D2]. destruct (AV Klabels VNone ltac:(destruct cl; reflexivity)) as [L1 L2]. repeat split.
        * intros X I. rewrite (D1 _ I) in D. injection D as <-. exact F1.
        * intros N. rewrite (D2 N) in D. injection D as <-. exact F1.
        * rewrite (L1 _ H0) in L. injection L as <-. exact F2.
        * rewrite (L1 _ H0) in L. injection L as <-. exact F3.
        * rewrite (L2 H0) in L. injection L as <-. exact F2.
        * rewrite (L2 H0) in L. injection L as <-. exact F3.
  Qed.
End Made.

Lemma forest_unknown P cl args h e k v : passes args k v -> ~ forest_accepts cl k -> forest_class P cl args h e = Err TypeError.
Proof.
  intros I N. unfold forest_class. rewrite (bind_unknown _ _ k v I); [reflexivity|].
  destruct (kget k (class_sig cl)) eqn:E; [|reflexivity]. exfalso. apply N, sig_accepts. congruence.
Qed.

Lemma suits_usable b k v : suits k v -> usable b k v = true.
Proof.
  intros T. destruct k, v; cbn in T; try contradiction; try reflexivity; cbn;
    repeat match goal with |- context [(?z <? 0)%Z] => destruct (Z.ltb_spec z 0); [lia|] end; try reflexivity;
    destruct b; cbn; repeat match goal with |- context [(?z <? 0)%Z] => destruct (Z.ltb_spec z 0); [lia|] end; reflexivity.
Qed.
Lemma default_suits cl k d : kget k (class_sig cl) = Some d -> suits k d.
Proof. intros E. destruct cl, k; cbn in E; try discriminate E; injection E as <-; cbn; auto; lia. Qed.

Lemma forest_made P cl args h e : proper_forest_call cl args h -> exists attrs c f e', forest_class P cl args h e = Ok (attrs, c, f, e').
Proof.
  intros PC. pose proof (once_distinct _ (pf_once _ _ _ PC)) as DK.
  destruct (bind_total (class_sig cl) args DK) as [p B].
  { intros k v I. apply sig_accepts. exact (proj1 (pf_known _ _ _ PC k v I)). }
  pose proof (bind_ok _ _ _ B) as (_ & K1 & K2).
  assert (V : forall k, match kget k (class_sig cl) with
              | Some d => param k (p ++ base_defaults) VNone = match kget k args with Some v => v | None => d end
              | None => param k (p ++ base_defaults) VNone = param k base_defaults VNone end).
  { intros k. unfold param. rewrite kget_app. destruct (kget k (class_sig cl)) as [d|] eqn:E; [rewrite (K1 _ _ E); reflexivity|].
    destruct (K2 _ E) as [-> _]. reflexivity. }
  assert (US : forall b k, usable b k (param k (p ++ base_defaults) VNone) = true).
  { intros b k. specialize (V k). destruct (kget k (class_sig cl)) as [d|] eqn:E.
    - rewrite V. apply suits_usable. destruct (kget k args) as [v|] eqn:G; [|exact (default_suits _ _ _ E)].
      apply kget_in in G. exact (proj2 (pf_known _ _ _ PC k v G)).
    - rewrite V. destruct cl, k; cbn in E; try discriminate E; reflexivity. }
  unfold forest_class. rewrite B. cbn [rbind]. set (q := p ++ base_defaults) in *.
  destruct (settings_total cl q (US _)) as [c EC]. rewrite EC. cbn [rbind].
  destruct (isok_ex _ (US BOther Kdata)) as [dt ED]. rewrite ED. cbn [rbind].
  destruct (isok_ex _ (US BOther Klabels)) as [la EL]. rewrite EL. cbn [rbind].
  destruct (isok_ex _ (US BOther Kclasses)) as [cs ECS]. rewrite ECS. cbn [rbind].
  destruct (isok_ex _ (US BOther Kbudget)) as [bu EB]. rewrite EB. cbn [rbind].
  pose proof (settings_mean _ _ _ EC) as [IC MN].
  assert (X : exists f e', forest_new P c dt la cs bu h e = Ok (f, e')).
  { apply (proj2 (new_accepts P c dt la cs bu h e ltac:(
      intros r ->; pose proof (V Klabels) as VL; replace (kget Klabels (class_sig cl)) with (Some VNone) in VL by (destruct cl; reflexivity);
      rewrite VL in EL; destruct (kget Klabels args) as [v|] eqn:G; [|discriminate EL]; apply kget_in in G; destruct v; try discriminate EL;
      injection EL as ->; exact (pf_labels _ _ _ PC r G)))).
    set (o := {| wo_attrs := q; wo_cfg := c; wo_forest := {| f_data := None; f_org := None; f_new := None; f_trees := []; f_classes := []; f_ncl := 0; f_dd := None; f_minmax := None; f_budget := None; f_queries := 0; f_oob := []; f_mdg := None; f_gen := [] |}; wo_feats := None |}).
    assert (MO : forall k, option_kw k -> means o k (param k q VNone)) by (intros k OK; exact (MN _ _ k OK)).
    split.
    - intros BO. pose proof (MO Kboosting ltac:(repeat split; discriminate)) as MB. pose proof (MO Kboosting_lr ltac:(repeat split; discriminate)) as ML.
      pose proof (V Kboosting) as VB. pose proof (V Kboosting_lr) as VR. destruct cl.
      + cbn [class_sig] in VB. change (kget Kboosting (class_sig true)) with (@None pyval) in VB. rewrite VB in MB. cbn in MB. congruence.
      + change (kget Kboosting (class_sig false)) with (Some (VBool false)) in VB. change (kget Kboosting_lr (class_sig false)) with (Some VNone) in VR.
        rewrite VB in MB. destruct (kget Kboosting args) as [v|] eqn:G; [|cbn in MB; congruence].
        apply kget_in in G. destruct v; try contradiction. cbn in MB. rewrite <- MB, BO in G.
        split; [exact IC|]. destruct (pf_lr _ _ _ PC G) as (w & I & N). rewrite (kget_distinct _ _ _ DK I) in VR. rewrite VR in ML.
        destruct w; try contradiction; cbn in ML; congruence.
    - intros OO. pose proof (MO Koob_score ltac:(repeat split; discriminate)) as MS. pose proof (MO Kbootstrap ltac:(repeat split; discriminate)) as MB.
      pose proof (V Koob_score) as VS. pose proof (V Kbootstrap) as VB.
      replace (kget Koob_score (class_sig cl)) with (Some (VBool false)) in VS by (destruct cl; reflexivity).
      replace (kget Kbootstrap (class_sig cl)) with (Some (VBool true)) in VB by (destruct cl; reflexivity).
      rewrite VS in MS. rewrite VB in MB. destruct (kget Koob_score args) as [v|] eqn:G; [|cbn in MS; congruence].
      apply kget_in in G. destruct v; try contradiction. cbn in MS. rewrite <- MS, OO in G.
      destruct (kget Kbootstrap args) as [v|] eqn:G2; [|exact MB]. apply kget_in in G2. destruct v; try contradiction. cbn in MB.
      destruct (fc_bootstrap c); [reflexivity|]. rewrite <- MB in G2. destruct (pf_oob _ _ _ PC G G2). }
  destruct X as (f & e' & ->). cbn [rbind fst snd]. eauto.
Qed.

Definition fargs : kwargs := [(Kdata, VTable X6); (Klabels, VArr 0); (Kmax_depth, VInt 3); (Kboosting, VBool true); (Kboosting_lr, VNum (frac 1 2)); (Kfeature_subsampling, VNum (frac 1 2)); (Koob_score, VBool true)].
Lemma fargs_proper : proper_forest_call false fargs (heap_of T6).
Proof.
  constructor.
  - cbn. repeat (constructor; [cbn; intuition discriminate|]). constructor.
  - intros k v I. unfold passes, fargs in I. cbn [In] in I. repeat (destruct I as [I|I]; [injection I as <- <-; split; [apply sig_accepts; discriminate|cbn; auto; lia]|]). destruct I.
  - intros r I. unfold passes, fargs in I. cbn [In] in I. repeat (destruct I as [I|I]; [try discriminate I; injection I as <-; cbn; lia|]). destruct I.
  - intros _. exists (VNum (frac 1 2)). split; [cbn; tauto|discriminate].
  - intros _ I. unfold passes, fargs in I. cbn [In] in I. repeat (destruct I as [I|I]; [discriminate I|]). destruct I.
Qed.

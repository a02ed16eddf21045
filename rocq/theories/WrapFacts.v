(** Facts about keyword binding and the wrapper constructors. *)
From Coq Require Import List Arith Bool ZArith QArith Qcanon Lia Permutation.
From Verif Require Import Base Num Rng Histogram Utils Criteria Solvers Tree Forest Wrappers Spec SolverSpec TreeSpec ForestSpec WrapSpec NumFacts ListFacts.
Import ListNotations.
Local Open Scope nat_scope.

Lemma kw_eqb_eq : forall a b, kw_eqb a b = true <-> a = b.
Proof.
  intros a b. split; [|intros ->; apply Nat.eqb_refl].
  intros H. apply Nat.eqb_eq in H. destruct a, b; try reflexivity; discriminate H.
Qed.

Lemma kget_in : forall k v l, kget k l = Some v -> In (k, v) l.
Proof.
  intros k v l. induction l as [|[j u] l IH]; cbn; intros H; [discriminate H|].
  destruct (kw_eqb k j) eqn:E; [|right; now apply IH].
  apply kw_eqb_eq in E. injection H as <-. left. now subst.
Qed.

Lemma kget_none : forall k l, kget k l = None -> forall v, ~ In (k, v) l.
Proof.
  intros k l. induction l as [|[j u] l IH]; cbn; intros H v I; [exact I|].
  destruct (kw_eqb k j) eqn:E; [discriminate H|]. destruct I as [I|I]; [|exact (IH H v I)].
  injection I as -> ->. rewrite (proj2 (kw_eqb_eq k k) eq_refl) in E. discriminate E.
Qed.

Lemma kget_distinct : forall k v l, distinct_keys l = true -> In (k, v) l -> kget k l = Some v.
Proof.
  intros k v l. induction l as [|[j u] l IH]; cbn; intros D I; [destruct I|].
  apply andb_true_iff in D. destruct D as [D1 D2]. destruct (kw_eqb k j) eqn:E.
  - apply kw_eqb_eq in E. subst j. destruct I as [I|I]; [now injection I as ->|].
    rewrite (IH D2 I) in D1. discriminate D1.
  - destruct I as [I|I]; [|now apply IH]. injection I as -> ->. rewrite (proj2 (kw_eqb_eq k k) eq_refl) in E. discriminate E.
Qed.

Lemma kget_app : forall k a b, kget k (a ++ b) = match kget k a with Some v => Some v | None => kget k b end.
Proof.
  intros k a b. induction a as [|[j u] a IH]; cbn; [reflexivity|]. destruct (kw_eqb k j); [reflexivity|exact IH].
Qed.

Lemma kget_map : forall k (g : kw -> pyval -> pyval) l, kget k (map (fun kd => (fst kd, g (fst kd) (snd kd))) l) = option_map (g k) (kget k l).
Proof.
  intros k g l. induction l as [|[j u] l IH]; cbn; [reflexivity|]. destruct (kw_eqb k j) eqn:E; [|exact IH].
  apply kw_eqb_eq in E. now subst.
Qed.

Lemma bind_ok : forall sig args p, bind sig args = Ok p ->
  distinct_keys args = true /\
  (forall k d, kget k sig = Some d -> kget k p = Some (match kget k args with Some v => v | None => d end)) /\
  (forall k, kget k sig = None -> kget k p = None /\ kget k args = None).
Proof.
  intros sig args p H. unfold bind, guard in H.
  destruct (distinct_keys args && _) eqn:G; [|discriminate H]. cbn in H. injection H as <-.
  apply andb_true_iff in G. destruct G as [G1 G2]. split; [exact G1|]. split.
  - intros k d E. rewrite (kget_map k (fun j d0 => match kget j args with Some v => v | None => d0 end)), E. reflexivity.
  - intros k E. split.
    + rewrite (kget_map k (fun j d0 => match kget j args with Some v => v | None => d0 end)), E. reflexivity.
    + destruct (kget k args) as [v|] eqn:A; [|reflexivity]. apply kget_in in A.
      rewrite forallb_forall in G2. specialize (G2 _ A). cbn in G2. rewrite E in G2. discriminate G2.
Qed.

Lemma bind_unknown : forall sig args k v, In (k, v) args -> kget k sig = None -> bind sig args = Err TypeError.
Proof.
  intros sig args k v I E. unfold bind, guard. destruct (distinct_keys args && _) eqn:G; [|reflexivity].
  apply andb_true_iff in G. destruct G as [_ G]. rewrite forallb_forall in G. specialize (G _ I). cbn in G. rewrite E in G. discriminate G.
Qed.

Lemma bind_total : forall sig args, distinct_keys args = true -> (forall k v, In (k, v) args -> kget k sig <> None) -> exists p, bind sig args = Ok p.
Proof.
  intros sig args D A. unfold bind, guard. rewrite D. cbn [andb].
  destruct (forallb _ args) eqn:G; [eexists; reflexivity|].
  assert (X : forallb (fun a => match kget (fst a) sig with Some _ => true | None => false end) args = true).
  { apply forallb_forall. intros [k v] I. cbn. specialize (A k v I). destruct (kget k sig); [reflexivity|contradiction]. }
  rewrite X in G. discriminate G.
Qed.

(** Looking up an argument of the super call. *)
Fixpoint aget (k : kw) (l : list (kw * arg)) : option arg :=
  match l with [] => None | (j, a) :: t => if kw_eqb k j then Some a else aget k t end.
Lemma kget_eval : forall k p l, kget k (map (fun ka => (fst ka, eval_arg p (snd ka))) l) = option_map (eval_arg p) (aget k l).
Proof.
  intros k p l. induction l as [|[j a] l IH]; cbn; [reflexivity|]. now destruct (kw_eqb k j).
Qed.

(** ** Taking a construction apart *)
Lemma forest_class_ok : forall P b args h e attrs c f e', forest_class P b args h e = Ok (attrs, c, f, e') ->
  exists p data labels classes budget, bind (class_sig b) args = Ok p /\ attrs = p ++ base_defaults /\ settings b attrs = Ok c /\
    as_opt as_table (param Kdata attrs VNone) = Ok data /\ as_opt as_arr (param Klabels attrs VNone) = Ok labels /\
    as_opt as_dict (param Kclasses attrs VNone) = Ok classes /\ as_opt as_int (param Kbudget attrs VNone) = Ok budget /\
    forest_new P c data labels classes budget h e = Ok (f, e').
Proof.
  intros P b args h e attrs c f e' H. unfold forest_class in H.
  apply rbind_ok in H; destruct H as [p [E1 H]]. cbv zeta in H.
  apply rbind_ok in H; destruct H as [c' [E2 H]].
  apply rbind_ok in H; destruct H as [d [E3 H]].
  apply rbind_ok in H; destruct H as [l [E4 H]].
  apply rbind_ok in H; destruct H as [cl [E5 H]].
  apply rbind_ok in H; destruct H as [bu [E6 H]].
  apply rbind_ok in H; destruct H as [[f' e''] [E7 H]]. cbn in H. injection H as <- <- <- <-.
  exists p, d, l, cl, bu. auto 10.
Qed.

Definition super_args (w : wrapper) (p : kwargs) : kwargs := map (fun ka => (fst ka, eval_arg p (snd ka))) (common_pass ++ extra_pass w).

Lemma construct_ok : forall P w args h e o h' e', construct P w args h e = Ok (o, h', e') ->
  exists p p', bind (w_sig w) args = Ok p /\ prepare P w p h = Ok (p', wo_feats o, h') /\
    forest_class P (w_class w) (super_args w p') h' e = Ok (wo_attrs o, wo_cfg o, wo_forest o, e').
Proof.
  intros P w args h e o h' e' H. unfold construct in H.
  apply rbind_ok in H; destruct H as [p [E1 H]].
  apply rbind_ok in H; destruct H as [[[p' fe] h1] [E2 H]].
  apply rbind_ok in H; destruct H as [[[[at' c] f] e1] [E3 H]]. cbn in H. injection H as <- <- <-. cbn.
  exists p, p'. auto.
Qed.

Lemma prepare_params : forall P w p h p' fe h', prepare P w p h = Ok (p', fe, h') ->
  forall k, k <> Kdata -> k <> Klabels -> kget k p' = kget k p.
Proof.
  intros P w p h p' fe h' H k N1 N2. unfold prepare in H. destruct (w_prep w).
  - now injection H as <- <- <-.
  - apply rbind_ok in H; destruct H as [x [_ H]]. now injection H as <- <- <-.
  - apply rbind_ok in H; destruct H as [x [_ H]]. now injection H as <- <- <-.
  - apply rbind_ok in H; destruct H as [x [_ H]]. apply rbind_ok in H; destruct H as [[[q J] hh] [E H]].
    injection H as <- <- <-. unfold patch in E. repeat (apply rbind_ok in E; destruct E as [? [_ E]]).
    injection E as <- <- <-. cbn.
    destruct k; try reflexivity; contradiction.
Qed.

Section Attributes.
Context (P : prng) (w : wrapper) (args : kwargs) (h : heap) (e : env) (o : wobj) (h' : heap) (e' : env).
Hypothesis H : construct P w args h e = Ok (o, h', e').

Lemma attr_fixed : forall k v d, aget k (common_pass ++ extra_pass w) = Some (Fix v) -> kget k (class_sig (w_class w)) = Some d -> attribute o k = v.
Proof.
  intros k v d A E. apply construct_ok in H. destruct H as (p & p' & B & PR & FC).
  apply forest_class_ok in FC. destruct FC as (q & data & labels & classes & budget & B2 & AT & ST & _).
  pose proof (bind_ok _ _ _ B2) as (_ & K1 & _).
  unfold attribute. rewrite AT, kget_app, (K1 _ _ E). unfold super_args. now rewrite kget_eval, A.
Qed.

Lemma attr_default : forall k, aget k (common_pass ++ extra_pass w) = None ->
  attribute o k = match kget k (class_sig (w_class w) ++ base_defaults) with Some v => v | None => VNone end.
Proof.
  intros k A. apply construct_ok in H. destruct H as (p & p' & B & PR & FC).
  apply forest_class_ok in FC. destruct FC as (q & data & labels & classes & budget & B2 & AT & ST & _).
  pose proof (bind_ok _ _ _ B2) as (_ & K1 & K2).
  unfold attribute. rewrite AT, !kget_app. destruct (kget k (class_sig (w_class w))) as [d|] eqn:E.
  - rewrite (K1 _ _ E). unfold super_args. now rewrite kget_eval, A.
  - destruct (K2 _ E) as [-> _]. reflexivity.
Qed.

Lemma attr_passed : forall k d d', k <> Kdata -> k <> Klabels -> aget k (common_pass ++ extra_pass w) = Some (Par k) -> kget k (class_sig (w_class w)) = Some d' ->
  kget k (w_sig w) = Some d -> attribute o k = match kget k args with Some v => v | None => d end.
Proof.
  intros k d d' N1 N2 A E W. apply construct_ok in H. destruct H as (p & p' & B & PR & FC).
  apply forest_class_ok in FC. destruct FC as (q & data & labels & classes & budget & B2 & AT & ST & _).
  pose proof (bind_ok _ _ _ B2) as (_ & K1 & _). pose proof (bind_ok _ _ _ B) as (_ & J1 & _).
  unfold attribute. rewrite AT, kget_app, (K1 _ _ E). unfold super_args. rewrite kget_eval, A. cbn [option_map eval_arg].
  unfold param. rewrite (prepare_params _ _ _ _ _ _ _ PR k N1 N2), (J1 _ _ W). reflexivity.
Qed.

Lemma args_distinct : distinct_keys args = true.
Proof. apply construct_ok in H. destruct H as (p & p' & B & _). exact (proj1 (bind_ok _ _ _ B)). Qed.

Lemma built_settings : settings (w_class w) (wo_attrs o) = Ok (wo_cfg o).
Proof. apply construct_ok in H. destruct H as (p & p' & B & PR & FC). apply forest_class_ok in FC. destruct FC as (q & da & l & cl & bu & _ & _ & ST & _). exact ST. Qed.

Lemma built_new : exists data labels classes budget,
  as_opt as_table (attribute o Kdata) = Ok data /\ as_opt as_arr (attribute o Klabels) = Ok labels /\ as_opt as_int (attribute o Kbudget) = Ok budget /\
  as_opt as_dict (attribute o Kclasses) = Ok classes /\
  forest_new P (wo_cfg o) data labels classes budget h' e = Ok (wo_forest o, e').
Proof.
  apply construct_ok in H. destruct H as (p & p' & B & PR & FC). apply forest_class_ok in FC. destruct FC as (q & da & l & cl & bu & _ & _ & _ & A & A2 & A3 & A4 & FN).
  exists da, l, cl, bu. unfold attribute. unfold param in *. auto.
Qed.

Lemma constructible : ~ boosted_classifier w.
Proof.
  intros G. apply construct_ok in H. destruct H as (p & p' & B & PR & FC).
  unfold forest_class in FC. assert (X : bind (class_sig (w_class w)) (super_args w p') = Err TypeError).
  { destruct G as [->|[->|[->|[->| ->]]]]; (apply (bind_unknown _ _ Kboosting (VBool true)); [|reflexivity]);
      cbn; do 18 right; left; reflexivity. }
  rewrite X in FC. discriminate FC.
Qed.

End Attributes.

Lemma actual_attr : forall P w args h e o h' e', construct P w args h e = Ok (o, h', e') -> forall k v, In (k, v) (actual w) -> attribute o k = v.
Proof.
  intros P w args h e o h' e' H k v I. pose proof (constructible _ _ _ _ _ _ _ _ H) as NB. assert (NB' : boosted_classifier w -> False) by exact NB. clear NB.
  destruct w; cbn [actual app] in I;
    try (exfalso; apply NB'; unfold boosted_classifier; tauto);
    repeat (destruct I as [I|I]; [injection I as <- <-; first [eapply attr_fixed; [exact H|reflexivity|reflexivity] | rewrite (attr_default _ _ _ _ _ _ _ _ H); reflexivity]|]); destruct I.
Qed.

Lemma optional_attr : forall P w args h e o h' e', construct P w args h e = Ok (o, h', e') -> forall k d, In (k, d) (optional w) -> attribute o k = match kget k args with Some v => v | None => d end.
Proof.
  intros P w args h e o h' e' H k v I. pose proof (constructible _ _ _ _ _ _ _ _ H) as NB. assert (NB' : boosted_classifier w -> False) by exact NB. clear NB.
  destruct w; cbn [optional app] in I;
    try (exfalso; apply NB'; unfold boosted_classifier; tauto);
    repeat (destruct I as [I|I]; [injection I as <- <-; eapply attr_passed; [exact H|discriminate|discriminate|reflexivity|reflexivity|reflexivity]|]); destruct I.
Qed.


(** ** What the options mean *)
Lemma as_bool_ok : forall v b, as_bool v = Ok b -> v = VBool b.
Proof. intros v b H. destruct v; try discriminate H. now injection H as ->. Qed.
Lemma as_nat_ok : forall v n, as_nat v = Ok n -> v = VInt (Z.of_nat n).
Proof.
  intros v n H. destruct v; try discriminate H. cbn in H. destruct (z <? 0)%Z eqn:E; [discriminate H|].
  injection H as <-. apply Z.ltb_ge in E. f_equal. lia.
Qed.

Definition option_kw (k : kw) : Prop := k <> Kdata /\ k <> Klabels /\ k <> Kclasses /\ k <> Kbudget.

Lemma settings_mean : forall b p c, settings b p = Ok c -> fc_class c = b /\
  forall f fe k, option_kw k ->
    means {| wo_attrs := p; wo_cfg := c; wo_forest := f; wo_feats := fe |} k (param k p VNone).
Proof.
  intros b p c H. unfold settings in H. cbv zeta in H.
  apply rbind_ok in H; destruct H as [n [E1 H]].
  apply rbind_ok in H; destruct H as [depth [E2 H]].
  apply rbind_ok in H; destruct H as [boot [E3 H]].
  apply rbind_ok in H; destruct H as [sub [E4 H]].
  apply rbind_ok in H; destruct H as [ms [E5 H]].
  apply rbind_ok in H; destruct H as [mi [E6 H]].
  apply rbind_ok in H; destruct H as [lv [E7 H]].
  apply rbind_ok in H; destruct H as [bin [E8 H]].
  apply rbind_ok in H; destruct H as [nb [E9 H]].
  apply rbind_ok in H; destruct H as [cr [E10 H]].
  apply rbind_ok in H; destruct H as [sp [E11 H]].
  apply rbind_ok in H; destruct H as [so [E12 H]].
  apply rbind_ok in H; destruct H as [se [E13 H]].
  apply rbind_ok in H; destruct H as [re [E14 H]].
  apply rbind_ok in H; destruct H as [bo [E15 H]].
  apply rbind_ok in H; destruct H as [lr [E16 H]].
  apply rbind_ok in H; destruct H as [di [E17 H]].
  apply rbind_ok in H; destruct H as [mm [E18 H]].
  apply rbind_ok in H; destruct H as [lo [E19 H]].
  apply rbind_ok in H; destruct H as [dy [E20 H]].
  apply rbind_ok in H; destruct H as [ep [E21 H]].
  apply rbind_ok in H; destruct H as [oo [E22 H]].
  apply rbind_ok in H; destruct H as [ba [E23 H]].
  apply rbind_ok in H; destruct H as [aN [E24 H]].
  apply rbind_ok in H; destruct H as [aF [E25 H]].
  injection H as <-. split; [reflexivity|]. intros f fe k (N1 & N2 & N3 & N4).
  destruct k; try contradiction; cbn [means wo_cfg fc_n fc_max_depth fc_bootstrap fc_fsub fc_min_split fc_min_imp fc_max_leaves fc_bin fc_nb fc_crit fc_splitter fc_solver fc_seed fc_repl fc_boosting fc_lr fc_make_discrete fc_precomp_minmax fc_log_split fc_dyn_eps fc_eps fc_oob fc_batch fc_alpha_N fc_alpha_F].
  - apply as_nat_ok in E1. rewrite E1. reflexivity.
  - destruct (param Kmax_depth p VNone); try discriminate E2; now injection E2 as <-.
  - apply as_bool_ok in E3. rewrite E3. reflexivity.
  - destruct (param Kfeature_subsampling p VNone); try discriminate E4; now injection E4 as <-.
  - apply as_nat_ok in E5. rewrite E5. reflexivity.
  - destruct (param Kmin_impurity_decrease p VNone); try discriminate E6; now injection E6 as <-.
  - destruct (param Kmax_leaf_nodes p VNone); cbn in E7; try discriminate E7; [now injection E7 as <-|].
    destruct (z <? 0)%Z eqn:L; [discriminate E7|]. cbn in E7. injection E7 as <-. apply Z.ltb_ge in L. eexists. split; [reflexivity|lia].
  - destruct (param Kbin_type p VNone); try discriminate E8. now injection E8 as <-.
  - destruct (param Knum_bins p VNone); try discriminate E9; try (destruct bin; try discriminate E9; reflexivity).
    assert (X : as_nat (VInt z) = Ok nb) by (destruct bin; exact E9). apply as_nat_ok in X. now injection X as ->.
  - destruct (param Kcriterion p VNone); try discriminate E10; now injection E10 as <-.
  - destruct (param Ksplitter p VNone); try discriminate E11; now injection E11 as <-.
  - destruct (param Ksolver p VNone); try discriminate E12; now injection E12 as <-.
  - apply as_nat_ok in E13. rewrite E13. reflexivity.
  - apply as_bool_ok in E14. rewrite E14. reflexivity.
  - destruct (param Kverbose p VNone); exact I.
  - apply as_bool_ok in E15. rewrite E15. reflexivity.
  - destruct (param Kboosting_lr p VNone); cbn in E16; try discriminate E16; now injection E16 as <-.
  - apply as_bool_ok in E17. rewrite E17. reflexivity.
  - apply as_bool_ok in E18. rewrite E18. reflexivity.
  - apply as_bool_ok in E19. rewrite E19. reflexivity.
  - apply as_bool_ok in E20. rewrite E20. reflexivity.
  - destruct (param Kepsilon p VNone); try discriminate E21; now injection E21 as <-.
  - apply as_bool_ok in E22. rewrite E22. reflexivity.
  - apply as_nat_ok in E23. rewrite E23. reflexivity.
  - destruct (param Kalpha_F p VNone); try discriminate E25; now injection E25 as <-.
  - destruct (param Kalpha_N p VNone); try discriminate E24; now injection E24 as <-.
Qed.

Lemma new_shape : forall P c data labels classes budget h e f e', forest_new P c data labels classes budget h e = Ok (f, e') ->
  f_data f = data /\ f_org f = labels /\ f_new f = labels /\ f_trees f = [] /\ f_budget f = budget /\ f_queries f = 0 /\ f_dd f = None /\ f_minmax f = None /\ f_mdg f = None /\
  f_gen f = seed_gen P (fc_seed c) /\ e' = set_seed P (fc_seed c) e.
Proof.
  intros P c data labels classes budget h e f e' H. unfold forest_new in H.
  apply rbind_ok in H; destruct H as [cl [E1 H]]. cbv zeta in H.
  apply rbind_ok in H; destruct H as [u [E2 H]].
  apply rbind_ok in H; destruct H as [u2 [E3 H]].
  apply rbind_ok in H; destruct H as [u3 [E4 H]]. injection H as <- <-. cbn. auto 12.
Qed.

Lemma attr_means : forall P w args h e o h' e', construct P w args h e = Ok (o, h', e') ->
  forall k, k <> Kdata -> k <> Klabels -> k <> Kclasses -> means o k (attribute o k).
Proof.
  intros P w args h e o h' e' H k N1 N2 N3. pose proof (built_settings _ _ _ _ _ _ _ _ H) as S.
  destruct (kw_eqb k Kbudget) eqn:B.
  - apply kw_eqb_eq in B. subst k. destruct (built_new _ _ _ _ _ _ _ _ H) as (d & l & cl & bu & _ & _ & X & _ & FN).
    apply new_shape in FN. cbn. destruct (attribute o Kbudget); try discriminate X; injection X as <-; intuition.
  - pose proof (proj2 (settings_mean _ _ _ S) (wo_forest o) (wo_feats o) k) as X.
    assert (Y : {| wo_attrs := wo_attrs o; wo_cfg := wo_cfg o; wo_forest := wo_forest o; wo_feats := wo_feats o |} = o) by (destruct o; reflexivity).
    rewrite Y in X. apply X.
    repeat split; auto. intros ->. rewrite (proj2 (kw_eqb_eq _ _) eq_refl) in B. discriminate B.
Qed.

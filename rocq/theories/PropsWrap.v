(** Theorems about the wrapper classes (data_structures/wrappers). *)
From Coq Require Import List Arith Bool ZArith QArith Qcanon Lia Permutation.
From Verif Require Import Base Num Rng Histogram Utils Criteria Solvers Tree Forest Samples Wrappers.
From Verif Require Import Spec TreeSpec ForestSpec WrapSpec TreeWitness ForestWitness ForestTotal Columns WrapFacts WrapLife WrapTotal WrapBase WrapWitness.
Import ListNotations.
Local Open Scope nat_scope.

(** ** Documented settings *)
(** C62 fails twice: five wrappers cannot be constructed at all (C104), and ten others take a
    proper call and then do not have a setting their docstring fixes. *)
Theorem C62_documented_refuted : forall w, ~ accurate w -> ~ boosted_classifier w -> exists P args h e o h' e' k v,
  proper_call w args h /\ construct P w args h e = Ok (o, h', e') /\ In (k, v) (documented w) /\ attribute o k <> v.
Proof. exact misdocumented. Qed.
Print Assumptions C62_documented_refuted.
Theorem C62_constructible_refuted : forall P w args h e r, boosted_classifier w -> construct P w args h e <> Ok r.
Proof. exact never_constructed. Qed.
Print Assumptions C62_constructible_refuted.
Theorem C62_documented_partial : forall P w args h e o h' e', accurate w -> construct P w args h e = Ok (o, h', e') ->
  forall k v, In (k, v) (documented w) -> attribute o k = v.
Proof. exact accurate_settings. Qed.
Print Assumptions C62_documented_partial.
Example C62_cases : accurate RandomPatchesClassifier /\ ~ accurate RandomForestRegressor /\ ~ boosted_classifier RandomForestRegressor /\ boosted_classifier GBRandomForestClassifier.
Proof. unfold accurate, boosted_classifier. intuition discriminate. Qed.

(** ** Settings as they are *)
Theorem C103_settings : forall P w args h e o h' e', construct P w args h e = Ok (o, h', e') ->
  (forall k v, In (k, v) (actual w) -> attribute o k = v /\ means o k v) /\
  (forall k d, In (k, d) (optional w) ->
     (forall v, passes args k v -> attribute o k = v /\ means o k v) /\ ((forall v, ~ passes args k v) -> attribute o k = d /\ means o k d)).
Proof. exact settings_of. Qed.
Print Assumptions C103_settings.
Theorem C103_kind : forall P w args h e o h' e', construct P w args h e = Ok (o, h', e') -> fc_class (wo_cfg o) = w_class w.
Proof. exact kind. Qed.
Print Assumptions C103_kind.
Theorem C103_unknown_option : forall P w args h e k v, ~ boosted_classifier w -> passes args k v -> ~ accepts w k -> construct P w args h e = Err TypeError.
Proof. exact unknown_option. Qed.
Print Assumptions C103_unknown_option.
Example C103_unknown_ex : passes [(Kbootstrap, VBool false)] Kbootstrap (VBool false) /\ ~ accepts RandomForestClassifier Kbootstrap.
Proof. split; [left; reflexivity|]. unfold accepts, patched. cbn. intuition discriminate. Qed.

(** ** Which wrappers can be constructed *)
Theorem C104_boosted_classifiers_unusable : forall P w args h e r, boosted_classifier w -> construct P w args h e <> Ok r.
Proof. exact never_constructed. Qed.
Print Assumptions C104_boosted_classifiers_unusable.
Example C104_type_error : construct P1 GBRandomForestClassifier full_args (heap_of Y6) env0 = Err TypeError.
Proof. exact boosted_type_error. Qed.
Theorem C104_others_constructible : forall P w args h e, ~ boosted_classifier w -> proper_call w args h -> exists o h' e', construct P w args h e = Ok (o, h', e').
Proof. exact constructs. Qed.
Print Assumptions C104_others_constructible.
Example C104_proper : forall w, ~ boosted_classifier w -> proper_call w (wargs w) (heap_of Y6).
Proof. exact wargs_proper. Qed.
Theorem C104_missing_option : forall P w args h e k, NoDup (map fst args) -> (forall j v, passes args j v -> accepts w j) ->
  insists w k -> left_out w args k -> construct P w args h e = Err GenericException.
Proof. exact needs_option. Qed.
Print Assumptions C104_missing_option.
Example C104_missing_ex : NoDup (map fst nodepth) /\ (forall j v, passes nodepth j v -> accepts GBRandomForestRegressor j) /\
  insists GBRandomForestRegressor Kboosting_lr /\ left_out GBRandomForestRegressor nodepth Kboosting_lr.
Proof. exact needs_option_ex. Qed.

(** ** Fitting a wrapper *)
Theorem C105_wrapper_fits : forall M P w args h e o h' e' data W la m, construct P w args h e = Ok (o, h', e') -> fit_ready w o h' data W la ->
  attribute o Kmax_depth <> VNone -> enough_thresholds w o data (la_vals la) W m ->
  (attribute o Ksolver = VSolver EXACT /\ m = 2 \/ attribute o Ksolver = VSolver MAB /\ w_class w = true /\ attribute o Kbin_type <> VBin IDENTITY /\ m = 6) ->
  exists f' h2 e2, forest_fit M P (wo_cfg o) (wo_forest o) (None, None) h' e' = Ok (f', h2, e2).
Proof. exact wrapper_fits. Qed.
Print Assumptions C105_wrapper_fits.
Example C105_runs : exists o h' e', construct P1 RandomPatchesClassifier (wargs RandomPatchesClassifier) (heap_of Y6) env0 = Ok (o, h', e') /\
  (exists data la, fit_ready RandomPatchesClassifier o h' data 2 la /\ length data = 6 /\ enough_thresholds RandomPatchesClassifier o data (la_vals la) 2 2) /\
  attribute o Kmax_depth <> VNone /\ attribute o Ksolver = VSolver EXACT /\ (forall data, f_data (wo_forest o) = Some data -> data <> []) /\
  exists f h2 e2, forest_fit M0 P1 (wo_cfg o) (wo_forest o) (None, None) h' e' = Ok (f, h2, e2) /\ length (f_trees f) = 2.
Proof. exact ready_ex. Qed.
Theorem C106_wrapper_needs_depth : forall M P w args h e o h' e' data W la, construct P w args h e = Ok (o, h', e') -> fit_ready w o h' data W la ->
  attribute o Kmax_depth = VNone -> attribute o Kmax_leaf_nodes <> VInt 1 -> attribute o Kn_estimators <> VInt 0 ->
  (forall b, attribute o Kbudget = VInt b -> (0 < b)%Z) ->
  forest_fit M P (wo_cfg o) (wo_forest o) (None, None) h' e' = Err TypeError.
Proof. exact wrapper_no_depth. Qed.
Print Assumptions C106_wrapper_needs_depth.
Example C106_ex : exists o h' e' data la, construct P1 RandomForestClassifier nodepth (heap_of Y6) env0 = Ok (o, h', e') /\
  fit_ready RandomForestClassifier o h' data 2 la /\ attribute o Kmax_depth = VNone /\ attribute o Kmax_leaf_nodes <> VInt 1 /\ attribute o Kn_estimators <> VInt 0 /\ attribute o Kbudget = VNone.
Proof. exact no_depth_ex. Qed.

(** ** What a wrapper is trained on *)
Theorem C107_patches : forall P w args h e o h' e', construct P w args h e = Ok (o, h', e') -> patched w ->
  exists X r0 r la vN vF aN aF I J, passes args Kdata (VTable X) /\ nth_error X 0 = Some r0 /\ passes args Klabels (VArr r) /\ nth_error h r = Some la /\
    passes args Kalpha_N vN /\ num_value vN aN /\ passes args Kalpha_F vF /\ num_value vF aF /\
    sample_of aN (length X) I /\ sample_of aF (length r0) J /\ (forall i, In i I -> i < length (la_vals la)) /\
    wo_feats o = Some J /\ f_data (wo_forest o) = Some (map (fun i => map (cell X i) J) I) /\
    f_org (wo_forest o) = Some (length h) /\
    h' = h ++ [{| la_int := la_int la; la_vals := map (fun i => nth i (la_vals la) 0%Qc) I |}].
Proof. exact patch_shape. Qed.
Print Assumptions C107_patches.
Theorem C107_others : forall P w args h e o h' e', construct P w args h e = Ok (o, h', e') -> ~ patched w ->
  h' = h /\ wo_feats o = None /\
  (forall X, passes args Kdata (VTable X) -> f_data (wo_forest o) = Some X) /\ ((forall v, ~ passes args Kdata v) -> f_data (wo_forest o) = None) /\
  (forall r, passes args Klabels (VArr r) -> f_org (wo_forest o) = Some r) /\ ((forall v, ~ passes args Klabels v) -> f_org (wo_forest o) = None).
Proof. exact plain_shape. Qed.
Print Assumptions C107_others.

(** ** Which columns a prediction reads *)
Theorem C108_training_columns_only : forall M P c f0 arg h0 e0 f1 h1 e1 f, forest_fit M P c f0 arg h0 e0 = Ok (f1, h1, e1) -> used c h1 f1 f ->
  forall data r0, fit_data f0 arg = Some data -> nth_error data 0 = Some r0 -> some_rows c (length data) ->
  forall x y, (forall j, j < length r0 -> nth_error x j = nth_error y j) -> answer (forest_predict c f x) = answer (forest_predict c f y).
Proof. exact forest_columns. Qed.
Print Assumptions C108_training_columns_only.
Theorem C108_tree_columns_only : forall P M c a e t x y, built P M c a e t -> train_rows a <> [] ->
  (forall f, In f (train_feats a) -> nth_error x f = nth_error y f) -> tree_predict c t x = tree_predict c t y.
Proof. exact tree_columns. Qed.
Print Assumptions C108_tree_columns_only.
Example C108_ex : forall j, j < length [z 1; z 10] -> nth_error [z 1; z 10] j = nth_error [z 1; z 10; z 7] j.
Proof. intros j L. cbn in L. destruct j as [|[|j]]; try reflexivity. lia. Qed.

(** C109 fails: a patches wrapper given a row of the table it was constructed with reads its
    first columns, not the columns it was trained on. *)
Theorem C109_full_rows_refuted : exists P M args h e o h' e' J f h2 e2 x p p' f1 f2,
  proper_call RandomPatchesClassifier args h /\ construct P RandomPatchesClassifier args h e = Ok (o, h', e') /\ wo_feats o = Some J /\
  forest_fit M P (wo_cfg o) (wo_forest o) (None, None) h' e' = Ok (f, h2, e2) /\ passes args Kdata (VTable X6) /\ In x X6 /\
  forest_predict (wo_cfg o) f x = Ok (FClass (z 1) p, f1) /\ forest_predict (wo_cfg o) f (project J x) = Ok (FClass (z 0) p', f2).
Proof. exact patch_confused. Qed.
Print Assumptions C109_full_rows_refuted.
Theorem C109_first_columns_partial : forall M P w args h e o h' e' f h2 e2 g, construct P w args h e = Ok (o, h', e') -> patched w ->
  (forall data, f_data (wo_forest o) = Some data -> data <> []) ->
  forest_fit M P (wo_cfg o) (wo_forest o) (None, None) h' e' = Ok (f, h2, e2) -> used (wo_cfg o) h2 f g ->
  exists J, wo_feats o = Some J /\ forall x, answer (forest_predict (wo_cfg o) g x) = answer (forest_predict (wo_cfg o) g (firstn (length J) x)).
Proof. exact patch_prefix. Qed.
Print Assumptions C109_first_columns_partial.

(** ** The settings of the two forest classes *)
Theorem C129_settings : forall P cl args h e attrs c f e', forest_class P cl args h e = Ok (attrs, c, f, e') ->
  let o := {| wo_attrs := attrs; wo_cfg := c; wo_forest := f; wo_feats := None |} in
  fc_class c = cl /\
  (forall k d, In (k, d) (forest_options cl) ->
     (forall v, passes args k v -> attribute o k = v /\ means o k v) /\ ((forall v, ~ passes args k v) -> attribute o k = d /\ means o k d)) /\
  (cl = true -> fc_boosting c = false) /\
  (forall X, passes args Kdata (VTable X) -> f_data f = Some X) /\ ((forall v, ~ passes args Kdata v) -> f_data f = None) /\
  (forall r, passes args Klabels (VArr r) -> f_org f = Some r /\ f_new f = Some r) /\ ((forall v, ~ passes args Klabels v) -> f_org f = None /\ f_new f = None).
Proof. exact made_settings. Qed.
Print Assumptions C129_settings.
Theorem C129_constructed : forall P cl args h e, proper_forest_call cl args h -> exists attrs c f e', forest_class P cl args h e = Ok (attrs, c, f, e').
Proof. exact forest_made. Qed.
Print Assumptions C129_constructed.
Example C129_proper : proper_forest_call false fargs (heap_of T6).
Proof. exact fargs_proper. Qed.
Theorem C129_unknown_option : forall P cl args h e k v, passes args k v -> ~ forest_accepts cl k -> forest_class P cl args h e = Err TypeError.
Proof. exact forest_unknown. Qed.
Print Assumptions C129_unknown_option.
Example C129_unknown : passes fargs Kboosting (VBool true) /\ ~ forest_accepts true Kboosting.
Proof. split; [cbn; tauto|]. unfold forest_accepts. cbn. intuition discriminate. Qed.

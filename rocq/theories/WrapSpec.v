(** Specification vocabulary for the wrapper classes. *)
From Coq Require Import List Arith Bool ZArith QArith Qcanon Lia Permutation.
From Verif Require Import Base Num Rng Histogram Utils Criteria Solvers Tree Forest Wrappers Spec SolverSpec TreeSpec ForestSpec.
Import ListNotations.
Local Open Scope nat_scope.

(** The value a caller passes for an option, if any. *)
Definition passes (args : kwargs) (k : kw) (v : pyval) : Prop := In (k, v) args.

(** The option k of the object o, as the attribute of that name shows it. *)
Definition attribute (o : wobj) (k : kw) : pyval := match kget k (wo_attrs o) with Some v => v | None => VNone end.

(** The fixed settings announced in the docstring of each wrapper (entries marked
    "default value, not fixed" or "passed parameter" left out). *)
Definition documented (w : wrapper) : list (kw * pyval) :=
  let doc (boot : bool) (sub : pyval) (b : bintype) :=
    [(Kbootstrap, VBool boot); (Kfeature_subsampling, sub); (Kbin_type, VBin b)] in
  match w with
  | RandomForestClassifier | RandomForestRegressor => doc true VSqrt IDENTITY ++ [(Knum_bins, VNone)]
  | ExtremelyRandomForestClassifier | ExtremelyRandomForestRegressor => doc false VSqrt RANDOM ++ [(Knum_bins, VNone)]
  | HistogramRandomForestClassifier | HistogramRandomForestRegressor => doc true VSqrt LINEAR
  | RandomPatchesClassifier | RandomPatchesRegressor => doc false VNone IDENTITY ++ [(Knum_bins, VNone)]
  | HistogramRandomPatchesClassifier | HistogramRandomPatchesRegressor => doc false VNone LINEAR
  | GBRandomForestClassifier | GBRandomForestRegressor => doc true VSqrt IDENTITY ++ [(Knum_bins, VNone); (Kboosting, VBool true)]
  | GBExtremelyRandomForestClassifier | GBExtremelyRandomForestRegressor => doc true VSqrt RANDOM ++ [(Knum_bins, VNone); (Kboosting, VBool true)]
  | GBHistogramRandomForestClassifier => doc true VSqrt LINEAR ++ [(Kboosting, VBool true)]
  | GBHistogramRandomForestRegressor => doc false VSqrt LINEAR ++ [(Kboosting, VBool true)]
  | GBRandomPatchesClassifier | GBHistogramRandomPatchesClassifier => doc false VNone LINEAR ++ [(Kboosting, VBool true)]
  | GBRandomPatchesRegressor | GBHistogramRandomPatchesRegressor => doc false VNone LINEAR
  end.

(** Wrappers whose name announces boosting for classification. *)
Definition boosted_classifier (w : wrapper) : Prop :=
  w = GBRandomForestClassifier \/ w = GBExtremelyRandomForestClassifier \/ w = GBHistogramRandomForestClassifier \/
  w = GBRandomPatchesClassifier \/ w = GBHistogramRandomPatchesClassifier.
Definition boosted_regressor (w : wrapper) : Prop :=
  w = GBRandomForestRegressor \/ w = GBExtremelyRandomForestRegressor \/ w = GBHistogramRandomForestRegressor \/
  w = GBRandomPatchesRegressor \/ w = GBHistogramRandomPatchesRegressor.
(** Wrappers that restrict their data to random rows and columns when constructed. *)
Definition patched (w : wrapper) : Prop :=
  w = RandomPatchesClassifier \/ w = RandomPatchesRegressor \/ w = GBRandomPatchesRegressor \/ w = GBHistogramRandomPatchesRegressor.

(** The settings a caller cannot influence: (bootstrap, feature subsampling, bin type), and
    the rest. *)
Definition actual (w : wrapper) : list (kw * pyval) :=
  let fix3 (boot : bool) (sub : pyval) (b : bintype) :=
    [(Kbootstrap, VBool boot); (Kfeature_subsampling, sub); (Kbin_type, VBin b)] in
  let never := [(Kmake_discrete, VBool false); (Kuse_logarithmic_split, VBool false); (Kuse_dynamic_epsilon, VBool false);
                (Koob_score, VBool false); (Kbatch_size, VInt 1000)] in
  let minmax (b : bool) := [(Kis_precomputed_minmax, VBool b); (Kepsilon, if b then VNum (Q2Qc (1 # 100)) else VInt 0)] in
  let all := [(Kalpha_N, VNum 1%Qc); (Kalpha_F, VNum 1%Qc)] in
  let plain := [(Kboosting, VBool false); (Kboosting_lr, VNone)] in
  let boost := [(Kboosting, VBool true)] in
  let nobins := [(Knum_bins, VNone)] in
  never ++
  match w with
  | RandomForestClassifier => fix3 true VSqrt IDENTITY ++ nobins ++ minmax false ++ all ++ plain
  | RandomForestRegressor => fix3 true VNone IDENTITY ++ nobins ++ minmax false ++ all ++ plain
  | ExtremelyRandomForestClassifier => fix3 false VSqrt RANDOM ++ minmax false ++ all ++ plain
  | ExtremelyRandomForestRegressor => fix3 false VNone RANDOM ++ minmax false ++ all ++ plain
  | HistogramRandomForestClassifier => fix3 true VSqrt LINEAR ++ minmax true ++ all ++ plain
  | HistogramRandomForestRegressor => fix3 true VNone LINEAR ++ minmax true ++ all ++ plain
  | RandomPatchesClassifier | RandomPatchesRegressor => fix3 false VNone IDENTITY ++ nobins ++ minmax false ++ all ++ plain
  | HistogramRandomPatchesClassifier => fix3 true VSqrt LINEAR ++ minmax false ++ plain
  | HistogramRandomPatchesRegressor => fix3 true VNone LINEAR ++ minmax false ++ plain
  | GBRandomForestRegressor => [(Kfeature_subsampling, VSqrt); (Kbin_type, VBin IDENTITY)] ++ nobins ++ minmax false ++ all ++ boost
  | GBExtremelyRandomForestRegressor => fix3 true VNone RANDOM ++ minmax false ++ all ++ boost
  | GBHistogramRandomForestRegressor => fix3 false VNone LINEAR ++ minmax false ++ all ++ boost
  | GBRandomPatchesRegressor => fix3 false VNone IDENTITY ++ nobins ++ minmax false ++ all ++ boost
  | GBHistogramRandomPatchesRegressor => fix3 false VNone LINEAR ++ minmax false ++ all ++ boost
  | GBRandomForestClassifier | GBExtremelyRandomForestClassifier | GBHistogramRandomForestClassifier
  | GBRandomPatchesClassifier | GBHistogramRandomPatchesClassifier => []
  end.

(** The options a caller may pass besides data and labels, with the value used otherwise. *)
Definition optional (w : wrapper) : list (kw * pyval) :=
  [(Kn_estimators, VInt 100); (Kmax_depth, VNone); (Kmin_samples_split, VInt 2); (Kmin_impurity_decrease, VInt 0);
   (Kmax_leaf_nodes, VNone); (Kbudget, VNone); (Kcriterion, VMeasure (if w_class w then GINI else MSE));
   (Ksplitter, VSplitter BEST); (Ksolver, VSolver EXACT); (Krandom_state, VInt 0); (Kwith_replacement, VBool false); (Kverbose, VBool false)] ++
  match w with
  | RandomForestClassifier | RandomForestRegressor | RandomPatchesClassifier | RandomPatchesRegressor => []
  | ExtremelyRandomForestClassifier | ExtremelyRandomForestRegressor
  | HistogramRandomForestClassifier | HistogramRandomForestRegressor => [(Knum_bins, VInt 11)]
  | HistogramRandomPatchesClassifier | HistogramRandomPatchesRegressor => [(Knum_bins, VInt 11); (Kalpha_N, VNum 1%Qc); (Kalpha_F, VNum 1%Qc)]
  | GBRandomForestRegressor => [(Kbootstrap, VBool false); (Kboosting_lr, VNone)]
  | GBExtremelyRandomForestRegressor => [(Knum_bins, VNone); (Kboosting_lr, VNone)]
  | GBHistogramRandomForestRegressor | GBHistogramRandomPatchesRegressor => [(Knum_bins, VInt 11); (Kboosting_lr, VNone)]
  | GBRandomPatchesRegressor => [(Kboosting_lr, VNone)]
  | _ => []
  end.

(** The value of an option is what the forest works with. *)
Definition means (o : wobj) (k : kw) (v : pyval) : Prop :=
  let c := wo_cfg o in
  match k, v with
  | Kn_estimators, VInt z => Z.of_nat (fc_n c) = z
  | Kmax_depth, VNone => fc_max_depth c = DNone
  | Kmax_depth, VInf => fc_max_depth c = DInf
  | Kmax_depth, VInt z => fc_max_depth c = DFin z
  | Kbootstrap, VBool b => fc_bootstrap c = b
  | Kfeature_subsampling, VNone => fc_fsub c = FSNone
  | Kfeature_subsampling, VSqrt => fc_fsub c = FSSqrt
  | Kfeature_subsampling, VInt z => fc_fsub c = FSInt z
  | Kfeature_subsampling, VNum q => fc_fsub c = FSFloat q
  | Kfeature_subsampling, VStr => fc_fsub c = FSOther
  | Kmin_samples_split, VInt z => Z.of_nat (fc_min_split c) = z
  | Kmin_impurity_decrease, VInt z => fc_min_imp c = Zq z
  | Kmin_impurity_decrease, VNum q => fc_min_imp c = q
  | Kmax_leaf_nodes, VNone => fc_max_leaves c = None
  | Kmax_leaf_nodes, VInt z => exists n, fc_max_leaves c = Some n /\ Z.of_nat n = z
  | Kbin_type, VBin b => fc_bin c = b
  | Knum_bins, VNone => fc_bin c = IDENTITY
  | Knum_bins, VInt z => Z.of_nat (fc_nb c) = z
  | Kbudget, VNone => f_budget (wo_forest o) = None
  | Kbudget, VInt z => f_budget (wo_forest o) = Some z
  | Kcriterion, VMeasure m => fc_crit c = m
  | Kcriterion, VStr => fc_crit c = MOther
  | Ksplitter, VSplitter s => fc_splitter c = s
  | Ksplitter, VStr => fc_splitter c = SplitterOther
  | Ksolver, VSolver s => fc_solver c = s
  | Ksolver, VStr => fc_solver c = SolverOther
  | Krandom_state, VInt z => Z.of_nat (fc_seed c) = z
  | Kwith_replacement, VBool b => fc_repl c = b
  | Kboosting, VBool b => fc_boosting c = b
  | Kboosting_lr, VNone => fc_lr c = None
  | Kboosting_lr, VInt z => fc_lr c = Some (Zq z)
  | Kboosting_lr, VNum q => fc_lr c = Some q
  | Kmake_discrete, VBool b => fc_make_discrete c = b
  | Kis_precomputed_minmax, VBool b => fc_precomp_minmax c = b
  | Kuse_logarithmic_split, VBool b => fc_log_split c = b
  | Kuse_dynamic_epsilon, VBool b => fc_dyn_eps c = b
  | Kepsilon, VInt z => fc_eps c = Zq z
  | Kepsilon, VNum q => fc_eps c = q
  | Koob_score, VBool b => fc_oob c = b
  | Kbatch_size, VInt z => Z.of_nat (fc_batch c) = z
  | Kalpha_N, VInt z => fc_alpha_N c = Zq z
  | Kalpha_N, VNum q => fc_alpha_N c = q
  | Kalpha_F, VInt z => fc_alpha_F c = Zq z
  | Kalpha_F, VNum q => fc_alpha_F c = q
  | Kverbose, _ => True
  | _, _ => False
  end.

(** Values of the right kind for an option; budget, n_estimators etc. are numbers, and so on. *)
Definition well_typed (k : kw) (v : pyval) : Prop :=
  match k, v with
  | Kn_estimators, VInt z | Kmin_samples_split, VInt z | Knum_bins, VInt z | Krandom_state, VInt z => (0 <= z)%Z
  | Kmax_leaf_nodes, VInt z => (0 <= z)%Z
  | Kmax_leaf_nodes, VNone | Kbudget, VNone | Kbudget, VInt _ => True
  | Kmax_depth, (VNone | VInf | VInt _) => True
  | Kmin_impurity_decrease, (VInt _ | VNum _) | Kboosting_lr, (VInt _ | VNum _) | Kalpha_N, (VInt _ | VNum _) | Kalpha_F, (VInt _ | VNum _) => True
  | Kcriterion, (VMeasure _ | VStr) | Ksplitter, (VSplitter _ | VStr) | Ksolver, (VSolver _ | VStr) => True
  | Kbootstrap, VBool _ | Kwith_replacement, VBool _ | Kverbose, VBool _ => True
  | Kdata, VTable _ | Klabels, VArr _ => True
  | _, _ => False
  end.

(** What a point looks like to a forest trained on the columns J. *)
Definition project (J : list nat) (x : list Qc) : list Qc := map (fun j => nth j x 0%Qc) J.

(** A numeric option value. *)
Definition num_value (v : pyval) (q : Qc) : Prop := v = VNum q \/ exists z, v = VInt z /\ q = Zq z.

(** I are different row numbers below n, and there are ceil(alpha n) of them. *)
Definition sample_of (alpha : Qc) (n : nat) (I : list nat) : Prop :=
  NoDup I /\ (forall i, In i I -> i < n) /\ Z.of_nat (length I) = qceil (alpha * Nq n)%Qc.

(** A constructed object o that is about to be fitted to data with labels la, W columns: a
    non-empty rectangular table with at least one column, one label per row, whole-numbered
    labels for classification, room for one leaf, and (histogram random patches only) between
    one and all rows and columns per tree. *)
Record fit_ready (w : wrapper) (o : wobj) (h : heap) (data : list (list Qc)) (W : nat) (la : larr) : Prop := {
  fr_data : f_data (wo_forest o) = Some data;
  fr_labels : exists r, f_org (wo_forest o) = Some r /\ nth_error h r = Some la;
  fr_len : length (la_vals la) = length data;
  fr_rows : 1 <= length data;
  fr_cols : 1 <= W;
  fr_rect : rectangular W data;
  fr_whole : w_class w = true -> forall y, In y (la_vals la) -> exists z, y = Zq z;
  fr_leaves : attribute o Kmax_leaf_nodes <> VInt 0;
  fr_draws : w = HistogramRandomPatchesClassifier \/ w = HistogramRandomPatchesRegressor ->
    (1 <= ztrunc (Nq (length data) * fc_alpha_N (wo_cfg o))%Qc <= Z.of_nat (length data))%Z /\ (1 <= ztrunc (Nq W * fc_alpha_F (wo_cfg o))%Qc <= Z.of_nat W)%Z
}.

(** No column has the same value in every row. *)
Definition no_constant_column (data : list (list Qc)) (W : nat) : Prop :=
  forall f, f < W -> exists i j, i < length data /\ j < length data /\ cell data i f <> cell data j f.
(** Rows with equal features have equal labels. *)
Definition consistent_labels (data : list (list Qc)) (labels : list Qc) (W : nat) : Prop :=
  forall i j, i < length data -> j < length data -> (forall f, f < W -> cell data i f = cell data j f) -> nth i labels 0%Qc = nth j labels 0%Qc.

(** Enough thresholds for fitting with m thresholds per feature: nothing to ask of the
    wrappers that try every value; num_bins of at least m for those that draw thresholds; and
    for the histogram wrappers conditions on the data besides. *)
Definition enough_thresholds (w : wrapper) (o : wobj) (data : list (list Qc)) (labels : list Qc) (W m : nat) : Prop :=
  let bins := exists z, attribute o Knum_bins = VInt z /\ (Z.of_nat m <= z)%Z in
  match w with
  | RandomForestClassifier | RandomForestRegressor | RandomPatchesClassifier | RandomPatchesRegressor
  | GBRandomForestRegressor | GBRandomPatchesRegressor => True
  | ExtremelyRandomForestClassifier | ExtremelyRandomForestRegressor | GBExtremelyRandomForestRegressor => bins
  | HistogramRandomForestClassifier | HistogramRandomForestRegressor => bins /\ no_constant_column data W
  | HistogramRandomPatchesRegressor =>
      bins /\ (1 <= fc_alpha_N (wo_cfg o))%Qc /\ (1 <= fc_alpha_F (wo_cfg o))%Qc /\ consistent_labels data labels W
  | _ => False
  end.

(** The options a wrapper's constructor takes. *)
Definition accepts (w : wrapper) (k : kw) : Prop :=
  k = Kdata \/ k = Klabels \/ In k (map fst (optional w)) \/ (patched w /\ (k = Kalpha_N \/ k = Kalpha_F)).

(** A proper call of a wrapper's constructor: each option at most once and with a value of its
    kind; a learning rate for boosting; num_bins where the default is None although needed; an
    existing label array; and for the patches wrappers a non-empty rectangular table with one
    label per row and two fractions. *)
Record proper_call (w : wrapper) (args : kwargs) (h : heap) : Prop := {
  pc_once : NoDup (map fst args);
  pc_known : forall k v, passes args k v -> accepts w k /\ well_typed k v;
  pc_lr : boosted_regressor w -> exists v, passes args Kboosting_lr v;
  pc_bins : w = GBExtremelyRandomForestRegressor -> exists v, passes args Knum_bins v;
  pc_labels : forall r, passes args Klabels (VArr r) -> r < length h;
  pc_patch : patched w -> exists X W r la vN aN vF aF, passes args Kdata (VTable X) /\ X <> [] /\ rectangular W X /\
     passes args Klabels (VArr r) /\ nth_error h r = Some la /\ length (la_vals la) = length X /\
     passes args Kalpha_N vN /\ num_value vN aN /\ passes args Kalpha_F vF /\ num_value vF aF /\
     (0 <= aN)%Qc /\ (aN <= 1)%Qc /\ (0 <= aF)%Qc /\ (aF <= 1)%Qc
}.

(** The wrappers whose docstring is accurate. *)
Definition accurate (w : wrapper) : Prop :=
  w = RandomForestClassifier \/ w = HistogramRandomForestClassifier \/ w = RandomPatchesClassifier \/ w = RandomPatchesRegressor \/
  w = GBHistogramRandomPatchesRegressor.

(** The options of ForestClassifier (cl = true) and ForestRegressor besides data, labels and
    classes, with the value used if the option is not passed. *)
Definition forest_options (cl : bool) : list (kw * pyval) :=
  [(Kn_estimators, VInt 100); (Kmax_depth, VInf); (Kbootstrap, VBool true); (Kfeature_subsampling, VNone);
   (Kmin_samples_split, VInt 2); (Kmin_impurity_decrease, VInt 0); (Kmax_leaf_nodes, VNone);
   (Kbin_type, VBin LINEAR); (Knum_bins, VInt 11); (Kbudget, VNone); (Kcriterion, VMeasure GINI);
   (Ksplitter, VSplitter BEST); (Ksolver, VSolver MAB); (Krandom_state, VInt 0); (Kwith_replacement, VBool false);
   (Kverbose, VBool false); (Kmake_discrete, VBool false); (Kis_precomputed_minmax, VBool false);
   (Kuse_logarithmic_split, VBool false); (Kuse_dynamic_epsilon, VBool false); (Kepsilon, VInt 0);
   (Koob_score, VBool false); (Kbatch_size, VInt 1000); (Kalpha_F, VNum 1%Qc); (Kalpha_N, VNum 1%Qc)] ++
  (if cl then [] else [(Kboosting, VBool false); (Kboosting_lr, VNone)]).
Definition forest_accepts (cl : bool) (k : kw) : Prop :=
  k = Kdata \/ k = Klabels \/ (cl = true /\ k = Kclasses) \/ In k (map fst (forest_options cl)).

(** Values of the right kind for the options of the two forest classes. *)
Definition suits (k : kw) (v : pyval) : Prop :=
  match k, v with
  | Kfeature_subsampling, (VNone | VSqrt | VInt _ | VNum _ | VStr) => True
  | Kbin_type, VBin _ => True
  | (Kmake_discrete | Kis_precomputed_minmax | Kuse_logarithmic_split | Kuse_dynamic_epsilon | Koob_score | Kboosting), VBool _ => True
  | Kepsilon, (VInt _ | VNum _) => True
  | Kbatch_size, VInt z => (0 <= z)%Z
  | (Kdata | Klabels | Kclasses | Kboosting_lr), VNone => True
  | Kclasses, VDict _ => True
  | _, _ => well_typed k v
  end.

(** A call ForestClassifier(...) / ForestRegressor(...) with each option at most once, every
    option known and with a value of its kind, an existing label array, a learning rate with
    boosting, and bootstrapping if out-of-bag scores are wanted. *)
Record proper_forest_call (cl : bool) (args : kwargs) (h : heap) : Prop := {
  pf_once : NoDup (map fst args);
  pf_known : forall k v, passes args k v -> forest_accepts cl k /\ suits k v;
  pf_labels : forall r, passes args Klabels (VArr r) -> r < length h;
  pf_lr : passes args Kboosting (VBool true) -> exists v, passes args Kboosting_lr v /\ v <> VNone;
  pf_oob : passes args Koob_score (VBool true) -> ~ passes args Kbootstrap (VBool false);
}.

(** The options some constructors refuse to do without: the learning rate in two of the
    boosted regressors, the two fractions in the patches wrappers. *)
Definition histogram_patches (w : wrapper) : Prop := w = HistogramRandomPatchesClassifier \/ w = HistogramRandomPatchesRegressor.
Definition insists (w : wrapper) (k : kw) : Prop :=
  (k = Kboosting_lr /\ (w = GBRandomForestRegressor \/ w = GBHistogramRandomForestRegressor)) \/
  ((k = Kalpha_N \/ k = Kalpha_F) /\ (patched w \/ histogram_patches w)).
(** The call passes None for the option, or leaves it out where the default is None (the
    histogram patches wrappers have the default 1). *)
Definition left_out (w : wrapper) (args : kwargs) (k : kw) : Prop :=
  passes args k VNone \/ ((forall v, ~ passes args k v) /\ ~ histogram_patches w).

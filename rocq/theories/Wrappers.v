(** Model of data_structures/wrappers/*.py and of the keyword handling of
    data_structures/forest_classifier.py and forest_regressor.py.
    Calls are made with keyword arguments only (a positional argument is the keyword at that
    place of the signature). *)
From Coq Require Import List Arith Bool ZArith QArith Qcanon Lia.
From Verif Require Import Base Num Rng Histogram Utils Criteria Solvers Tree Forest.
Import ListNotations.
Local Open Scope nat_scope.

(** ** Keyword arguments *)
Inductive kw :=
| Kdata | Klabels | Kn_estimators | Kmax_depth | Kbootstrap | Kfeature_subsampling
| Kmin_samples_split | Kmin_impurity_decrease | Kmax_leaf_nodes | Kbin_type | Knum_bins | Kbudget
| Kcriterion | Ksplitter | Ksolver | Krandom_state | Kwith_replacement | Kverbose | Kboosting
| Kboosting_lr | Kmake_discrete | Kclasses | Kis_precomputed_minmax | Kuse_logarithmic_split
| Kuse_dynamic_epsilon | Kepsilon | Koob_score | Kbatch_size | Kalpha_F | Kalpha_N.

Definition kw_code (k : kw) : nat :=
  match k with
  | Kdata => 0 | Klabels => 1 | Kn_estimators => 2 | Kmax_depth => 3 | Kbootstrap => 4 | Kfeature_subsampling => 5
  | Kmin_samples_split => 6 | Kmin_impurity_decrease => 7 | Kmax_leaf_nodes => 8 | Kbin_type => 9 | Knum_bins => 10 | Kbudget => 11
  | Kcriterion => 12 | Ksplitter => 13 | Ksolver => 14 | Krandom_state => 15 | Kwith_replacement => 16 | Kverbose => 17 | Kboosting => 18
  | Kboosting_lr => 19 | Kmake_discrete => 20 | Kclasses => 21 | Kis_precomputed_minmax => 22 | Kuse_logarithmic_split => 23
  | Kuse_dynamic_epsilon => 24 | Kepsilon => 25 | Koob_score => 26 | Kbatch_size => 27 | Kalpha_F => 28 | Kalpha_N => 29
  end.
Definition kw_eqb (a b : kw) : bool := kw_code a =? kw_code b.

(** Python values that are passed as arguments.  [VArr r] is a reference to a label array,
    [VSqrt] the constant SQRT, [VStr] any string that is not one of the constants. *)
Inductive pyval :=
| VNone | VBool (b : bool) | VInt (z : Z) | VNum (q : Qc) | VInf
| VTable (d : list (list Qc)) | VArr (r : nat) | VDict (d : cdict)
| VBin (b : bintype) | VMeasure (m : measure) | VSplitter (s : splitter) | VSolver (s : solver)
| VSqrt | VStr.

Definition kwargs := list (kw * pyval).

Fixpoint kget (k : kw) (l : kwargs) : option pyval :=
  match l with
  | [] => None
  | (j, v) :: t => if kw_eqb k j then Some v else kget k t
  end.

Fixpoint distinct_keys (l : kwargs) : bool :=
  match l with
  | [] => true
  | (k, _) :: t => match kget k t with Some _ => false | None => true end && distinct_keys t
  end.

(** Binding a call to a signature (every parameter has a default): an unknown or repeated
    keyword raises TypeError. *)
Definition bind (sig args : kwargs) : res kwargs :=
  do _ <- guard (distinct_keys args && forallb (fun a => match kget (fst a) sig with Some _ => true | None => false end) args) TypeError;
  Ok (map (fun kd => (fst kd, match kget (fst kd) args with Some v => v | None => snd kd end)) sig).

(** Reading a bound parameter or an option that the signature does not have. *)
Definition param (k : kw) (l : kwargs) (d : pyval) : pyval := match kget k l with Some v => v | None => d end.

(** ** The two forest classes *)

(** Parameters of ForestClassifier.__init__ and ForestRegressor.__init__ in common,
    forest_classifier.py:14-44 and forest_regressor.py:13-44. *)
Definition forest_sig : kwargs :=
  [(Kdata, VNone); (Klabels, VNone); (Kn_estimators, VInt 100); (Kmax_depth, VInf); (Kbootstrap, VBool true);
   (Kfeature_subsampling, VNone); (Kmin_samples_split, VInt 2); (Kmin_impurity_decrease, VInt 0);
   (Kmax_leaf_nodes, VNone); (Kbin_type, VBin LINEAR); (Knum_bins, VInt 11); (Kbudget, VNone);
   (Kcriterion, VMeasure GINI); (Ksplitter, VSplitter BEST); (Ksolver, VSolver MAB); (Krandom_state, VInt 0);
   (Kwith_replacement, VBool false); (Kverbose, VBool false); (Kmake_discrete, VBool false);
   (Kis_precomputed_minmax, VBool false); (Kuse_logarithmic_split, VBool false); (Kuse_dynamic_epsilon, VBool false);
   (Kepsilon, VInt 0); (Koob_score, VBool false); (Kbatch_size, VInt 1000); (Kalpha_F, VNum 1%Qc); (Kalpha_N, VNum 1%Qc)].
(** Only ForestClassifier has [classes]; only ForestRegressor has [boosting], [boosting_lr]. *)
Definition class_sig (is_class : bool) : kwargs :=
  forest_sig ++ if is_class then [(Kclasses, VNone)] else [(Kboosting, VBool false); (Kboosting_lr, VNone)].

(** What ForestBase.__init__ uses for the parameters the subclass does not pass,
    forest_base.py:30-61. *)
Definition base_defaults : kwargs := [(Kboosting, VBool false); (Kboosting_lr, VNone)].

(** Values used at the type the code expects; other values are not modelled. *)
Definition as_bool (v : pyval) : res bool := match v with VBool b => Ok b | _ => Err Unmodelled end.
Definition as_nat (v : pyval) : res nat := match v with VInt z => if (z <? 0)%Z then Err Unmodelled else Ok (Z.to_nat z) | _ => Err Unmodelled end.
Definition as_num (v : pyval) : res Qc := match v with VInt z => Ok (Zq z) | VNum q => Ok q | _ => Err Unmodelled end.
Definition as_opt {A} (f : pyval -> res A) (v : pyval) : res (option A) :=
  match v with VNone => Ok None | _ => do a <- f v; Ok (Some a) end.
Definition as_int (v : pyval) : res Z := match v with VInt z => Ok z | _ => Err Unmodelled end.
Definition as_depth (v : pyval) : res depthlim :=
  match v with VNone => Ok DNone | VInf => Ok DInf | VInt z => Ok (DFin z) | _ => Err Unmodelled end.
Definition as_sub (v : pyval) : res fsub :=
  match v with VNone => Ok FSNone | VSqrt => Ok FSSqrt | VInt k => Ok (FSInt k) | VNum r => Ok (FSFloat r) | VStr => Ok FSOther | _ => Err Unmodelled end.
Definition as_bin (v : pyval) : res bintype := match v with VBin b => Ok b | _ => Err Unmodelled end.
(** num_bins=None is only modelled with IDENTITY bins, where the value is never used
    (solvers.py:202-205 puts the number of rows in its place). *)
Definition as_bins (b : bintype) (v : pyval) : res nat :=
  match v, b with VNone, IDENTITY => Ok 0 | _, _ => as_nat v end.
Definition as_measure (v : pyval) : res measure := match v with VMeasure m => Ok m | VStr => Ok MOther | _ => Err Unmodelled end.
Definition as_splitter (v : pyval) : res splitter := match v with VSplitter s => Ok s | VStr => Ok SplitterOther | _ => Err Unmodelled end.
Definition as_solver (v : pyval) : res solver := match v with VSolver s => Ok s | VStr => Ok SolverOther | _ => Err Unmodelled end.
Definition as_table (v : pyval) : res (list (list Qc)) := match v with VTable d => Ok d | _ => Err Unmodelled end.
Definition as_arr (v : pyval) : res nat := match v with VArr r => Ok r | _ => Err Unmodelled end.
Definition as_dict (v : pyval) : res cdict := match v with VDict d => Ok d | _ => Err Unmodelled end.

(** The settings stored by ForestBase.__init__, forest_base.py:62-121; [verbose] only prints. *)
Definition settings (is_class : bool) (p : kwargs) : res fcfg :=
  let v k := param k p VNone in
  do n <- as_nat (v Kn_estimators);
  do depth <- as_depth (v Kmax_depth);
  do boot <- as_bool (v Kbootstrap);
  do sub <- as_sub (v Kfeature_subsampling);
  do msplit <- as_nat (v Kmin_samples_split);
  do mimp <- as_num (v Kmin_impurity_decrease);
  do leaves <- as_opt as_nat (v Kmax_leaf_nodes);
  do bin <- as_bin (v Kbin_type);
  do nb <- as_bins bin (v Knum_bins);
  do crit <- as_measure (v Kcriterion);
  do spl <- as_splitter (v Ksplitter);
  do sol <- as_solver (v Ksolver);
  do seed <- as_nat (v Krandom_state);
  do repl <- as_bool (v Kwith_replacement);
  do boo <- as_bool (v Kboosting);
  do lr <- as_opt as_num (v Kboosting_lr);
  do disc <- as_bool (v Kmake_discrete);
  do mm <- as_bool (v Kis_precomputed_minmax);
  do log <- as_bool (v Kuse_logarithmic_split);
  do dyn <- as_bool (v Kuse_dynamic_epsilon);
  do eps <- as_num (v Kepsilon);
  do oob <- as_bool (v Koob_score);
  do batch <- as_nat (v Kbatch_size);
  do aN <- as_num (v Kalpha_N);
  do aF <- as_num (v Kalpha_F);
  Ok {| fc_class := is_class; fc_n := n; fc_max_depth := depth; fc_bootstrap := boot; fc_fsub := sub;
        fc_min_split := msplit; fc_min_imp := mimp; fc_max_leaves := leaves; fc_bin := bin; fc_nb := nb;
        fc_crit := crit; fc_splitter := spl; fc_solver := sol; fc_seed := seed; fc_repl := repl;
        fc_boosting := boo; fc_lr := lr; fc_make_discrete := disc; fc_precomp_minmax := mm;
        fc_log_split := log; fc_dyn_eps := dyn; fc_eps := eps; fc_oob := oob; fc_batch := batch;
        fc_alpha_N := aN; fc_alpha_F := aF |}.

(** ForestClassifier(...) / ForestRegressor(...), forest_classifier.py:14-81 and
    forest_regressor.py:13-76. *)
Definition forest_class (P : prng) (is_class : bool) (args : kwargs) (h : heap) (e : env) : res (kwargs * fcfg * forest * env) :=
  do q <- bind (class_sig is_class) args;
  let p := q ++ base_defaults in
  do c <- settings is_class p;
  do data <- as_opt as_table (param Kdata p VNone);
  do labels <- as_opt as_arr (param Klabels p VNone);
  do classes <- as_opt as_dict (param Kclasses p VNone);
  do budget <- as_opt as_int (param Kbudget p VNone);
  do fe <- forest_new P c data labels classes budget h e;
  Ok (p, c, fst fe, snd fe).

(** ** The wrappers *)
Inductive wrapper :=
| RandomForestClassifier | RandomForestRegressor
| ExtremelyRandomForestClassifier | ExtremelyRandomForestRegressor
| HistogramRandomForestClassifier | HistogramRandomForestRegressor
| RandomPatchesClassifier | RandomPatchesRegressor
| HistogramRandomPatchesClassifier | HistogramRandomPatchesRegressor
| GBRandomForestClassifier | GBRandomForestRegressor
| GBExtremelyRandomForestClassifier | GBExtremelyRandomForestRegressor
| GBHistogramRandomForestClassifier | GBHistogramRandomForestRegressor
| GBRandomPatchesClassifier | GBRandomPatchesRegressor
| GBHistogramRandomPatchesClassifier | GBHistogramRandomPatchesRegressor.

Definition w_class (w : wrapper) : bool :=
  match w with
  | RandomForestClassifier | ExtremelyRandomForestClassifier | HistogramRandomForestClassifier
  | RandomPatchesClassifier | HistogramRandomPatchesClassifier | GBRandomForestClassifier
  | GBExtremelyRandomForestClassifier | GBHistogramRandomForestClassifier
  | GBRandomPatchesClassifier | GBHistogramRandomPatchesClassifier => true
  | _ => false
  end.

(** The fourteen parameters every wrapper has, with their defaults. *)
Definition common_sig (is_class : bool) : kwargs :=
  [(Kdata, VNone); (Klabels, VNone); (Kn_estimators, VInt 100); (Kmax_depth, VNone);
   (Kmin_samples_split, VInt 2); (Kmin_impurity_decrease, VInt 0); (Kmax_leaf_nodes, VNone); (Kbudget, VNone);
   (Kcriterion, VMeasure (if is_class then GINI else MSE)); (Ksplitter, VSplitter BEST); (Ksolver, VSolver EXACT);
   (Krandom_state, VInt 0); (Kwith_replacement, VBool false); (Kverbose, VBool false)].

(** The other parameters of each __init__ signature. *)
Definition extra_sig (w : wrapper) : kwargs :=
  match w with
  | RandomForestClassifier (* random_forest_classifier.py:18-34 *)
  | RandomForestRegressor (* random_forest_regressor.py:18-34 *) => []
  | ExtremelyRandomForestClassifier (* extremely_random_forest_classifier.py:18-35 *)
  | ExtremelyRandomForestRegressor (* extremely_random_forest_regressor.py:18-35 *)
  | HistogramRandomForestClassifier (* histogram_random_forest_classifier.py:18-35 *)
  | HistogramRandomForestRegressor (* histogram_random_forest_regressor.py:18-35 *) => [(Knum_bins, VInt 11)]
  | RandomPatchesClassifier (* random_patches_classifier.py:20-38 *)
  | RandomPatchesRegressor (* random_patches_regressor.py:20-38 *) => [(Kalpha_N, VNone); (Kalpha_F, VNone)]
  | HistogramRandomPatchesClassifier (* histogram_random_patches_classifier.py:20-39 *)
  | HistogramRandomPatchesRegressor (* histogram_random_patches_regressor.py:20-39 *) =>
      [(Kalpha_N, VNum 1%Qc); (Kalpha_F, VNum 1%Qc); (Knum_bins, VInt 11)]
  | GBRandomForestClassifier (* gradient_boosted_random_forest_classifier.py:20-37 *) => [(Kboosting_lr, VNone)]
  | GBRandomForestRegressor (* gradient_boosted_random_forest_regressor.py:20-40 *) =>
      [(Kbootstrap, VBool false); (Kboosting_lr, VNone)]
  | GBExtremelyRandomForestClassifier (* gradient_boosted_extremely_random_forest_classifier.py:20-38 *)
  | GBExtremelyRandomForestRegressor (* gradient_boosted_extremely_random_forest_regressor.py:20-38 *) =>
      [(Knum_bins, VNone); (Kboosting_lr, VNone)]
  | GBHistogramRandomForestClassifier (* gradient_boosted_histogram_random_forest_classifier.py:20-38 *)
  | GBHistogramRandomForestRegressor (* gradient_boosted_histogram_random_forest_regressor.py:20-38 *) =>
      [(Knum_bins, VInt 11); (Kboosting_lr, VNone)]
  | GBRandomPatchesClassifier (* gradient_boosted_random_patches_classifier.py:22-41 *)
  | GBRandomPatchesRegressor (* gradient_boosted_random_patches_regressor.py:20-39 *) =>
      [(Kalpha_N, VNone); (Kalpha_F, VNone); (Kboosting_lr, VNone)]
  | GBHistogramRandomPatchesClassifier (* gradient_boosted_histogram_random_patches_classifier.py:22-42 *)
  | GBHistogramRandomPatchesRegressor (* gradient_boosted_histogram_random_patches_regressor.py:20-40 *) =>
      [(Kalpha_N, VNone); (Kalpha_F, VNone); (Knum_bins, VInt 11); (Kboosting_lr, VNone)]
  end.
Definition w_sig (w : wrapper) : kwargs := common_sig (w_class w) ++ extra_sig w.

(** An argument of the super().__init__ call: a parameter or a constant. *)
Inductive arg := Par (k : kw) | Fix (v : pyval).

(** The arguments that are passed on unchanged by every wrapper ([data] and [labels] are
    those of [prepare] below). *)
Definition common_pass : list (kw * arg) :=
  map (fun k => (k, Par k))
    [Kdata; Klabels; Kn_estimators; Kmax_depth; Kmin_samples_split; Kmin_impurity_decrease; Kmax_leaf_nodes;
     Kbudget; Kcriterion; Ksplitter; Ksolver; Krandom_state; Kwith_replacement; Kverbose].

(** bootstrap, feature_subsampling, bin_type, num_bins of the super().__init__ call. *)
Definition core_pass (boot sub bin nb : arg) : list (kw * arg) :=
  [(Kbootstrap, boot); (Kfeature_subsampling, sub); (Kbin_type, bin); (Knum_bins, nb)].
Definition boost_pass : list (kw * arg) := [(Kboosting, Fix (VBool true)); (Kboosting_lr, Par Kboosting_lr)].
(** histogram_random_forest_classifier.py:55-57, histogram_random_forest_regressor.py:55-57. *)
Definition minmax_pass : list (kw * arg) :=
  [(Kis_precomputed_minmax, Fix (VBool true)); (Kuse_logarithmic_split, Fix (VBool false)); (Kepsilon, Fix (VNum (Q2Qc (1 # 100))))].
Definition alpha_pass : list (kw * arg) := [(Kalpha_N, Par Kalpha_N); (Kalpha_F, Par Kalpha_F)].

Definition extra_pass (w : wrapper) : list (kw * arg) :=
  let yes := Fix (VBool true) in
  let no := Fix (VBool false) in
  let none := Fix VNone in
  let sqrt := Fix VSqrt in
  let bins b := Fix (VBin b) in
  let nb := Par Knum_bins in
  match w with
  | RandomForestClassifier (* :35-54 *) => core_pass yes sqrt (bins IDENTITY) none
  | RandomForestRegressor (* :35-54 *) => core_pass yes none (bins IDENTITY) none
  | ExtremelyRandomForestClassifier (* :36-61 *) => core_pass no sqrt (bins RANDOM) nb
  | ExtremelyRandomForestRegressor (* :36-61 *) => core_pass no none (bins RANDOM) nb
  | HistogramRandomForestClassifier (* :36-58 *) => core_pass yes sqrt (bins LINEAR) nb ++ minmax_pass
  | HistogramRandomForestRegressor (* :36-58 *) => core_pass yes none (bins LINEAR) nb ++ minmax_pass
  | RandomPatchesClassifier (* :52-71 *) => core_pass no none (bins IDENTITY) none
  | RandomPatchesRegressor (* :50-69 *) => core_pass no none (bins IDENTITY) none
  | HistogramRandomPatchesClassifier (* :42-63 *) => core_pass yes sqrt (bins LINEAR) nb ++ alpha_pass
  | HistogramRandomPatchesRegressor (* :42-63 *) => core_pass yes none (bins LINEAR) nb ++ alpha_pass
  | GBRandomForestClassifier (* :38-59 *) => core_pass yes sqrt (bins IDENTITY) none ++ boost_pass
  | GBRandomForestRegressor (* :46-67 *) => core_pass (Par Kbootstrap) sqrt (bins IDENTITY) none ++ boost_pass
  | GBExtremelyRandomForestClassifier (* :39-61 *) => core_pass yes sqrt (bins RANDOM) nb ++ boost_pass
  | GBExtremelyRandomForestRegressor (* :39-61 *) => core_pass yes none (bins RANDOM) nb ++ boost_pass
  | GBHistogramRandomForestClassifier (* :39-60 *) => core_pass yes sqrt (bins LINEAR) nb ++ boost_pass
  | GBHistogramRandomForestRegressor (* :43-64 *) => core_pass no none (bins LINEAR) nb ++ boost_pass
  | GBRandomPatchesClassifier (* :53-74 *) => core_pass no none (bins IDENTITY) none ++ boost_pass
  | GBRandomPatchesRegressor (* :51-72 *) => core_pass no none (bins IDENTITY) none ++ boost_pass
  | GBHistogramRandomPatchesClassifier (* :54-75 *) => core_pass no none (bins LINEAR) nb ++ boost_pass
  | GBHistogramRandomPatchesRegressor (* :52-73 *) => core_pass no none (bins LINEAR) nb ++ boost_pass
  end.

(** What happens before super().__init__: nothing; a check that boosting_lr is given
    (gradient_boosted_random_forest_regressor.py:41-44,
    gradient_boosted_histogram_random_forest_regressor.py:39-42); a check that alpha_N and
    alpha_F are given (histogram_random_patches_*.py:40-41); that check and a restriction of
    the data to random rows and columns (random_patches_classifier.py:39-51 and alike). *)
Inductive prep := PNothing | PNeedLr | PNeedAlpha | PPatch.
Definition w_prep (w : wrapper) : prep :=
  match w with
  | GBRandomForestRegressor | GBHistogramRandomForestRegressor => PNeedLr
  | HistogramRandomPatchesClassifier | HistogramRandomPatchesRegressor => PNeedAlpha
  | RandomPatchesClassifier | RandomPatchesRegressor | GBRandomPatchesClassifier | GBRandomPatchesRegressor
  | GBHistogramRandomPatchesClassifier | GBHistogramRandomPatchesRegressor => PPatch
  | _ => PNothing
  end.

Definition given (k : kw) (p : kwargs) : bool := match param k p VNone with VNone => false | _ => true end.

(** rng.choice(n, math.ceil(alpha * n), replace=False); the product is exact here. *)
Definition ceil_choice (n : nat) (alpha : Qc) (gen : tape) : res (list nat * tape) :=
  let z := qceil (alpha * Nq n)%Qc in
  if (z <? 0)%Z then Err ValueError else choice_norepl (arange n) (Z.to_nat z) gen.

(** The restricted data and labels and the chosen columns, random_patches_classifier.py:41-51.
    The selected labels are a new array. *)
Definition patch (P : prng) (p : kwargs) (h : heap) : res (kwargs * list nat * heap) :=
  do od <- as_opt as_table (param Kdata p VNone);
  do data <- opt_res od TypeError;
  do r0 <- nth_res data 0;
  do seed <- as_nat (param Krandom_state p VNone);
  do aN <- as_num (param Kalpha_N p VNone);
  do rows <- ceil_choice (length data) aN (seed_gen P seed);
  do aF <- as_num (param Kalpha_F p VNone);
  do feats <- ceil_choice (length r0) aF (snd rows);
  do sub <- get_subset_2d data (fst rows) (fst feats);
  do ol <- as_opt as_arr (param Klabels p VNone);
  do r <- opt_res ol TypeError;
  do la <- nth_res h r;
  do ls <- take_idx (la_vals la) (fst rows);
  Ok ([(Kdata, VTable sub); (Klabels, VArr (length h))] ++ p, fst feats,
      h ++ [{| la_int := la_int la; la_vals := ls |}]).

(** Returns the parameters as super().__init__ sees them, self.feature_idcs and the heap. *)
Definition prepare (P : prng) (w : wrapper) (p : kwargs) (h : heap) : res (kwargs * option (list nat) * heap) :=
  match w_prep w with
  | PNothing => Ok (p, None, h)
  | PNeedLr => do _ <- guard (given Kboosting_lr p) GenericException; Ok (p, None, h)
  | PNeedAlpha => do _ <- guard (given Kalpha_N p && given Kalpha_F p) GenericException; Ok (p, None, h)
  | PPatch =>
      do _ <- guard (given Kalpha_N p && given Kalpha_F p) GenericException;
      do q <- patch P p h;
      let '(p', feats, h') := q in Ok (p', Some feats, h')
  end.

Definition eval_arg (p : kwargs) (a : arg) : pyval := match a with Par k => param k p VNone | Fix v => v end.

(** A constructed wrapper: the option values stored as attributes of the same name
    (forest_base.py:62-121), the settings they amount to, the rest of the forest's state, and
    self.feature_idcs. *)
Record wobj := { wo_attrs : kwargs; wo_cfg : fcfg; wo_forest : forest; wo_feats : option (list nat) }.

(** Wrapper(...): bind the arguments, prepare, call super().__init__. *)
Definition construct (P : prng) (w : wrapper) (args : kwargs) (h : heap) (e : env) : res (wobj * heap * env) :=
  do p <- bind (w_sig w) args;
  do q <- prepare P w p h;
  let '(p', feats, h') := q in
  do r <- forest_class P (w_class w) (map (fun ka => (fst ka, eval_arg p' (snd ka))) (common_pass ++ extra_pass w)) h' e;
  let '(attrs, c, f, e') := r in
  Ok ({| wo_attrs := attrs; wo_cfg := c; wo_forest := f; wo_feats := feats |}, h', e').

(** Wrapper theorems built from WrapLife and WrapTotal, and the runs behind the examples of
    PropsWrap.v. *)
From Coq Require Import List Arith Bool ZArith QArith Qcanon Lia Permutation.
From Verif Require Import Base Num Rng Histogram Utils Criteria Solvers Tree Forest Samples Wrappers Spec SolverSpec TreeSpec ForestSpec WrapSpec.
From Verif Require Import NumFacts ListFacts DrawFacts TreeWitness ForestWitness ForestTotal Columns WrapFacts WrapLife WrapTotal.
Import ListNotations.
Local Open Scope nat_scope.

(** ** Settings *)
Lemma accurate_settings P w args h e o h' e' : accurate w -> construct P w args h e = Ok (o, h', e') -> forall k v, In (k, v) (documented w) -> attribute o k = v.
Proof.
  intros A H k v I. apply (actual_attr _ _ _ _ _ _ _ _ H). destruct A as [->|[->|[->|[->| ->]]]]; cbn in I; repeat (destruct I as [I|I]; [rewrite <- I; cbn; tauto|]); destruct I.
Qed.

Lemma settings_of P w args h e o h' e' : construct P w args h e = Ok (o, h', e') ->
  (forall k v, In (k, v) (actual w) -> attribute o k = v /\ means o k v) /\
  (forall k d, In (k, d) (optional w) -> (forall v, passes args k v -> attribute o k = v /\ means o k v) /\ ((forall v, ~ passes args k v) -> attribute o k = d /\ means o k d)).
Proof.
  intros H. pose proof (args_distinct _ _ _ _ _ _ _ _ H) as AD. pose proof (constructible _ _ _ _ _ _ _ _ H) as NB. split.
  - intros k v I. pose proof (actual_attr _ _ _ _ _ _ _ _ H k v I) as A. split; auto. rewrite <- A. 
    assert (N : k <> Kdata /\ k <> Klabels /\ k <> Kclasses).
    { clear - I NB. destruct w; try (exfalso; apply NB; unfold boosted_classifier; tauto); cbn in I; repeat (destruct I as [I|I]; [injection I as <- _; repeat split; discriminate|]); destruct I. }
    now apply (attr_means _ _ _ _ _ _ _ _ H).
  - intros k d I. pose proof (optional_attr _ _ _ _ _ _ _ _ H k d I) as A.
    assert (N : k <> Kdata /\ k <> Klabels /\ k <> Kclasses).
    { clear - I NB. destruct w; try (exfalso; apply NB; unfold boosted_classifier; tauto); cbn in I; repeat (destruct I as [I|I]; [injection I as <- _; repeat split; discriminate|]); destruct I. }
    pose proof (attr_means _ _ _ _ _ _ _ _ H k) as AM. destruct N as (N1 & N2 & N3). specialize (AM N1 N2 N3). split.
    + intros v G. unfold passes in G. rewrite (kget_distinct _ _ _ AD G) in A. rewrite A in AM. auto.
    + intros G. destruct (kget k args) as [v|] eqn:E; [apply kget_in in E; destruct (G v E)|]. rewrite A in AM. auto.
Qed.

Lemma unknown_option P w args h e k v : ~ boosted_classifier w -> passes args k v -> ~ accepts w k -> construct P w args h e = Err TypeError.
Proof.
  intros NB I NA. assert (E : kget k (w_sig w) = None) by (destruct (kget k (w_sig w)) eqn:E; auto; exfalso; apply NA, (accepts_sig w k NB); congruence).
  unfold construct. rewrite (bind_unknown _ _ k v I E). reflexivity.
Qed.

Lemma never_constructed P w args h e r : boosted_classifier w -> construct P w args h e <> Ok r.
Proof. intros G H. destruct r as [[o h'] e']. exact (constructible _ _ _ _ _ _ _ _ H G). Qed.

(** Even a call with every argument in order. *)
Definition full_args : kwargs := [(Kdata, VTable X6); (Klabels, VArr 0); (Kmax_depth, VInt 3); (Kboosting_lr, VNum (frac 1 2))].
Lemma boosted_type_error : construct P1 GBRandomForestClassifier full_args (heap_of Y6) env0 = Err TypeError.
Proof. reflexivity. Qed.

(** ** Sample calls *)
Definition wargs (w : wrapper) : kwargs :=
  [(Kdata, VTable X6); (Klabels, VArr 0); (Kmax_depth, VInt 3); (Kn_estimators, VInt 2)] ++
  match w with
  | GBExtremelyRandomForestRegressor => [(Kboosting_lr, VNum (frac 1 2)); (Knum_bins, VInt 5)]
  | GBRandomForestRegressor | GBHistogramRandomForestRegressor => [(Kboosting_lr, VNum (frac 1 2))]
  | GBRandomPatchesRegressor | GBHistogramRandomPatchesRegressor => [(Kboosting_lr, VNum (frac 1 2)); (Kalpha_N, VInt 1); (Kalpha_F, VInt 1)]
  | RandomPatchesClassifier | RandomPatchesRegressor => [(Kalpha_N, VInt 1); (Kalpha_F, VInt 1)]
  | _ => []
  end.
Lemma X6_rect : rectangular 2 X6.
Proof. intros r I. repeat (destruct I as [<-|I]; [reflexivity|]). destruct I. Qed.
Lemma wargs_proper w : ~ boosted_classifier w -> proper_call w (wargs w) (heap_of Y6).
Proof.
  intros NB. assert (T : forall k v, passes (wargs w) k v -> accepts w k /\ well_typed k v).
  { intros k v I. rewrite (accepts_sig w k NB). destruct w; try (exfalso; apply NB; unfold boosted_classifier; tauto);
      unfold passes in I; cbn in I; repeat (destruct I as [I|I]; [injection I as <- <-; split; [discriminate|cbn; try lia; exact I]|]); destruct I. }
  constructor; auto.
  - destruct w; cbn; repeat constructor; cbn; intuition discriminate.
  - intros B. exists (VNum (frac 1 2)). unfold passes. destruct B as [->|[->|[->|[->| ->]]]]; cbn; tauto.
  - intros ->. exists (VInt 5). unfold passes. cbn. tauto.
  - intros r I. assert (r = 0); [|subst; cbn; lia]. unfold passes in I. destruct w; cbn in I; repeat (destruct I as [I|I]; [discriminate I || (injection I as <-; reflexivity)|]); destruct I.
  - intros PW. exists X6, 2, 0, {| la_int := false; la_vals := Y6 |}, (VInt 1), 1%Qc, (VInt 1), 1%Qc. unfold passes.
    split; [cbn; tauto|]. split; [discriminate|]. split; [exact X6_rect|]. split; [cbn; tauto|]. split; [reflexivity|]. split; [reflexivity|].
    split; [destruct PW as [->|[->|[->| ->]]]; cbn; tauto|]. split; [right; exists 1%Z; split; reflexivity|].
    split; [destruct PW as [->|[->|[->| ->]]]; cbn; tauto|]. split; [right; exists 1%Z; split; reflexivity|]. repeat split; discriminate.
Qed.

(** Ten wrappers whose docstring misstates a setting. *)
Lemma misdocumented w : ~ accurate w -> ~ boosted_classifier w -> exists P args h e o h' e' k v,
  proper_call w args h /\ construct P w args h e = Ok (o, h', e') /\ In (k, v) (documented w) /\ attribute o k <> v.
Proof.
  intros NA NB. destruct (constructs P1 w (wargs w) (heap_of Y6) env0 NB (wargs_proper w NB)) as (o & h' & e' & C).
  exists P1, (wargs w), (heap_of Y6), env0, o, h', e'.
  Ltac wrong C k v d := exists k, v; split; [now apply wargs_proper|]; split; [exact C|]; split; [cbn; tauto|];
    first [rewrite (actual_attr _ _ _ _ _ _ _ _ C k d ltac:(cbn; tauto)); discriminate | rewrite (optional_attr _ _ _ _ _ _ _ _ C k d ltac:(cbn; tauto)); discriminate].
  destruct w; try (exfalso; apply NB; unfold boosted_classifier; tauto); try (exfalso; apply NA; unfold accurate; tauto).
  - wrong C Kfeature_subsampling VSqrt VNone.
  - wrong C Knum_bins VNone (VInt 11).
  - wrong C Knum_bins VNone (VInt 11).
  - wrong C Kfeature_subsampling VSqrt VNone.
  - wrong C Kbootstrap (VBool false) (VBool true).
  - wrong C Kbootstrap (VBool false) (VBool true).
  - wrong C Kbootstrap (VBool true) (VBool false).
  - wrong C Kfeature_subsampling VSqrt VNone.
  - wrong C Kfeature_subsampling VSqrt VNone.
  - wrong C Kbin_type (VBin LINEAR) (VBin IDENTITY).
Qed.

(** ** Prediction of the patches wrappers *)
Lemma patch_prefix M P w args h e o h' e' f h2 e2 g : construct P w args h e = Ok (o, h', e') -> patched w ->
  (forall data, f_data (wo_forest o) = Some data -> data <> []) ->
  forest_fit M P (wo_cfg o) (wo_forest o) (None, None) h' e' = Ok (f, h2, e2) -> used (wo_cfg o) h2 f g ->
  exists J, wo_feats o = Some J /\ forall x, answer (forest_predict (wo_cfg o) g x) = answer (forest_predict (wo_cfg o) g (firstn (length J) x)).
Proof.
  intros C PW ND FT US. destruct (patch_shape _ _ _ _ _ _ _ _ C PW) as (X & r0 & r & la & vN & vF & aN & aF & I & J & _ & _ & _ & _ & _ & _ & _ & _ & _ & _ & _ & FJ & FD & _).
  exists J. split; auto. intros x. set (data := map (fun i => map (cell X i) J) I) in *. specialize (ND data FD).
  destruct data as [|d0 data'] eqn:ED; [contradiction|].
  assert (L0 : length d0 = length J). { assert (Q : In d0 data) by (rewrite ED; now left). unfold data in Q. apply in_map_iff in Q. destruct Q as [i [<- _]]. apply map_length. }
  assert (W : w <> HistogramRandomPatchesClassifier /\ w <> HistogramRandomPatchesRegressor) by (destruct PW as [->|[->|[->| ->]]]; split; discriminate).
  destruct (draws_default _ _ _ _ _ _ _ _ C (proj1 W) (proj2 W)) as [A1 A2].
  apply (forest_columns M P (wo_cfg o) (wo_forest o) (None, None) h' e' f h2 e2 g FT US (d0 :: data') d0).
  - exact FD.
  - reflexivity.
  - split; [cbn; lia|]. rewrite A1, A2. intros Q. discriminate Q.
  - rewrite L0. intros j LJ. clear - LJ. revert j LJ. generalize (length J) as n. intros n. revert x. induction n as [|n IH]; intros x j LJ; [lia|]. destruct x as [|v x]; [reflexivity|]. destruct j; [reflexivity|]. cbn. apply IH. lia.
Qed.


(** Two columns, both selected, but in the other order. *)
Ltac takeas K x E := let Q := fresh in pose proof (via _ _ K) as Q; clear K; destruct Q as [x [E K]]; cbv beta in K.
Lemma patch_confused : exists P M args h e o h' e' J f h2 e2 x p p' f1 f2,
  proper_call RandomPatchesClassifier args h /\ construct P RandomPatchesClassifier args h e = Ok (o, h', e') /\ wo_feats o = Some J /\
  forest_fit M P (wo_cfg o) (wo_forest o) (None, None) h' e' = Ok (f, h2, e2) /\ passes args Kdata (VTable X6) /\ In x X6 /\
  forest_predict (wo_cfg o) f x = Ok (FClass (z 1) p, f1) /\ forest_predict (wo_cfg o) f (project J x) = Ok (FClass (z 0) p', f2).
Proof.
  set (w := RandomPatchesClassifier).
  assert (K : check (construct P1 w (wargs w) (heap_of Y6) env0) (fun a => let '(o, h', e') := a in
     match wo_feats o with
     | Some J => check (forest_fit M0 P1 (wo_cfg o) (wo_forest o) (None, None) h' e') (fun b => let '(f, h2, e2) := b in
         check (forest_predict (wo_cfg o) f [z 1; z 10]) (fun q => match fst q with FClass l _ => qeq l (z 1) | _ => false end) &&
         check (forest_predict (wo_cfg o) f (project J [z 1; z 10])) (fun q => match fst q with FClass l _ => qeq l (z 0) | _ => false end))
     | None => false end) = true) by (vm_compute; reflexivity).
  takeas K x C. destruct x as [[o h'] e']. destruct (wo_feats o) as [J|] eqn:EJ; [|discriminate K]. takeas K x FT. destruct x as [[f h2] e2].
  apply andb_prop in K. destruct K as [K1 K2]. takeas K1 x Q1. destruct x as [p1 f1]. takeas K2 x Q2. destruct x as [p2 f2]. cbn [fst] in K1, K2.
  destruct p1 as [l1 p| | |]; try discriminate K1. destruct p2 as [l2 p'| | |]; try discriminate K2. apply qeq_spec in K1, K2. subst l1 l2.
  exists P1, M0, (wargs w), (heap_of Y6), env0, o, h', e', J, f, h2, e2, [z 1; z 10], p, p', f1, f2.
  split; [apply wargs_proper; intros [G|[G|[G|[G|G]]]]; discriminate G|]. split; [exact C|]. split; [exact EJ|]. split; [exact FT|]. split; [left; reflexivity|]. split; [left; reflexivity|]. split; [exact Q1|exact Q2].
Qed.

(** ** Cases for the hypotheses *)
Lemma ready_ex : exists o h' e', construct P1 RandomPatchesClassifier (wargs RandomPatchesClassifier) (heap_of Y6) env0 = Ok (o, h', e') /\
  (exists data la, fit_ready RandomPatchesClassifier o h' data 2 la /\ length data = 6 /\ enough_thresholds RandomPatchesClassifier o data (la_vals la) 2 2) /\
  attribute o Kmax_depth <> VNone /\ attribute o Ksolver = VSolver EXACT /\ (forall data, f_data (wo_forest o) = Some data -> data <> []) /\
  exists f h2 e2, forest_fit M0 P1 (wo_cfg o) (wo_forest o) (None, None) h' e' = Ok (f, h2, e2) /\ length (f_trees f) = 2.
Proof.
  assert (NB : ~ boosted_classifier RandomPatchesClassifier) by (intros [G|[G|[G|[G|G]]]]; discriminate G).
  destruct (constructs P1 RandomPatchesClassifier _ (heap_of Y6) env0 NB (wargs_proper _ NB)) as (o & h' & e' & C).
  exists o, h', e'. split; auto. pose proof C as C'. vm_compute in C'. apply ForestRepro.ok_inv in C'.
  pose proof (eq_sym (f_equal (fun x => fst (fst x)) C')) as EO. pose proof (eq_sym (f_equal (fun x => snd (fst x)) C')) as EH. pose proof (eq_sym (f_equal snd C')) as EE.
  cbn [fst snd] in EO, EH, EE. clear C' C. split; [|split; [|split; [|split]]].
  - eexists _, _. split; [constructor|split].
    + rewrite EO. reflexivity.
    + exists 1. rewrite EO, EH. split; reflexivity.
    + reflexivity.
    + cbn. lia.
    + lia.
    + intros x I. repeat (destruct I as [<-|I]; [reflexivity|]). destruct I.
    + intros _ y I. repeat (destruct I as [<-|I]; [(exists 0%Z; apply Qc_is_canon; reflexivity) || (exists 1%Z; apply Qc_is_canon; reflexivity)|]). destruct I.
    + rewrite EO. discriminate.
    + intros [G|G]; discriminate G.
    + reflexivity.
    + exact I.
  - rewrite EO. discriminate.
  - rewrite EO. reflexivity.
  - rewrite EO. intros data Q. injection Q as <-. discriminate.
  - assert (K : check (forest_fit M0 P1 (wo_cfg o) (wo_forest o) (None, None) h' e') (fun a => length (f_trees (fst (fst a))) =? 2) = true) by (rewrite EO, EH, EE; vm_compute; reflexivity).
    clear EO EH EE. takeas K x FT. destruct x as [[f h2] e2]. apply Nat.eqb_eq in K. eauto.
Qed.

Definition nodepth : kwargs := [(Kdata, VTable X6); (Klabels, VArr 0)].
Lemma no_depth_ex : exists o h' e' data la, construct P1 RandomForestClassifier nodepth (heap_of Y6) env0 = Ok (o, h', e') /\
  fit_ready RandomForestClassifier o h' data 2 la /\ attribute o Kmax_depth = VNone /\ attribute o Kmax_leaf_nodes <> VInt 1 /\ attribute o Kn_estimators <> VInt 0 /\ attribute o Kbudget = VNone.
Proof.
  eexists _, _, _, X6, {| la_int := false; la_vals := Y6 |}. split; [reflexivity|]. split; [constructor; cbn|repeat split; discriminate].
  - reflexivity.
  - exists 0. auto.
  - reflexivity.
  - lia.
  - lia.
  - exact X6_rect.
  - intros _ y I. repeat (destruct I as [<-|I]; [(exists 0%Z; reflexivity) || (exists 1%Z; reflexivity)|]). destruct I.
  - discriminate.
  - intros [G|G]; discriminate G.
Qed.

(** Calls without a required option. *)
Lemma needs_option P w args h e k : NoDup (map fst args) -> (forall j v, passes args j v -> accepts w j) ->
  insists w k -> left_out w args k -> construct P w args h e = Err GenericException.
Proof.
  intros ND KN IN LO.
  assert (NB : ~ boosted_classifier w).
  { unfold insists, patched, histogram_patches, boosted_classifier in *. intros B.
    destruct IN as [[_ IN]|[_ IN]]; intuition (subst; discriminate). }
  assert (DK := once_distinct args ND).
  destruct (bind_total (w_sig w) args DK) as [p B].
  { intros j v I. apply (accepts_sig w j NB). exact (KN j v I). }
  assert (G : given k p = false).
  { destruct (bind_ok _ _ _ B) as [_ [PV _]]. unfold given, param.
    assert (S : exists d, kget k (w_sig w) = Some d /\ (~ histogram_patches w -> d = VNone)).
    { clear - IN. unfold insists, patched, histogram_patches in *.
      destruct IN as [[-> IN]|[[->| ->] IN]]; repeat match goal with H : _ \/ _ |- _ => destruct H as [H|H] end; subst w; cbn;
        eexists; (split; [reflexivity|]); intros N; try reflexivity; exfalso; apply N; auto. }
    destruct S as (d & S & DN). rewrite (PV k d S). destruct LO as [I|[N NH]].
    - rewrite (kget_distinct k VNone args DK I). reflexivity.
    - destruct (kget k args) as [v|] eqn:E; [destruct (N v (kget_in _ _ _ E))|]. now rewrite (DN NH). }
  unfold construct. rewrite B. cbn [rbind]. unfold prepare.
  unfold insists, patched, histogram_patches in IN.
  destruct IN as [[-> IN]|[[->| ->] IN]]; repeat match goal with H : _ \/ _ |- _ => destruct H as [H|H] end; try subst w; cbn [w_prep];
    rewrite G; rewrite ?andb_false_r; reflexivity.
Qed.
Lemma needs_option_ex : NoDup (map fst nodepth) /\ (forall j v, passes nodepth j v -> accepts GBRandomForestRegressor j) /\
  insists GBRandomForestRegressor Kboosting_lr /\ left_out GBRandomForestRegressor nodepth Kboosting_lr.
Proof.
  repeat split.
  - cbn. repeat constructor; cbn; intuition discriminate.
  - intros j v [I|[I|[]]]; injection I as <- _; unfold accepts; auto.
  - left. auto.
  - right. split; [intros v [I|[I|[]]]; discriminate I|]. unfold histogram_patches. intuition discriminate.
Qed.

(** The exact solver. *)
From Coq Require Import List Arith Bool ZArith QArith Qcanon Lia Permutation Sorted.
From Verif Require Import Base Num Rng Histogram Utils Criteria Solvers Spec NumFacts ListFacts HistFacts HistAdd CritFacts ReductionFacts MakeHist SampleFacts HistProps HistProps2.
Import ListNotations.
Local Open Scope nat_scope.

(** The impurity a solver works with. *)
Definition imp_of (M : math) (c : scfg) : list Qc -> Qc :=
  if s_class c then class_imp M (s_measure c) else regr_imp (s_measure c).

Definition bins_of (c : scfg) (N : nat) : nat := match s_bin c with IDENTITY => N | _ => s_nb c end.

(** Edge number b of feature f is v in the given histograms. *)
Definition edge_at (hs : list hist) (f b : nat) (v : Qc) : Prop :=
  exists h edges, nth_error hs f = Some h /\ h_edges h = Some edges /\ nth_error edges b = Some v.

Lemma edge_at_fun hs f b v v' : edge_at hs f b v -> edge_at hs f b v' -> v = v'.
Proof.
  intros [h [e [H1 [H2 H3]]]] [h' [e' [H1' [H2' H3']]]]. rewrite H1 in H1'. injection H1' as <-.
  rewrite H2 in H2'. injection H2' as <-. congruence.
Qed.
Lemma edge_at_nb hs f b h : nth_error hs f = Some h -> fresh h -> b < h_nb h -> exists v, edge_at hs f b v.
Proof.
  intros H [_ F] L. destruct (h_edges h) as [e|] eqn:E; [|lia]. destruct F as [F _].
  destruct (nth_error e b) as [v|] eqn:N.
  - exists v, h, e. auto.
  - apply nth_error_None in N. lia.
Qed.
Lemma edge_at_lt hs f b v h : edge_at hs f b v -> nth_error hs f = Some h -> fresh h -> b < h_nb h.
Proof.
  intros [h' [e [H1 [H2 H3]]]] H [_ F]. rewrite H in H1. injection H1 as <-. rewrite H2 in F.
  destruct F as [<- _]. apply nth_error_Some. congruence.
Qed.

(** Scoring the whole data on fresh histograms gives the true reductions. *)
Definition first_P (ic : bool) (cl : list Qc) (hs : list hist) (f : nat) (h : hist) : Prop :=
  nth_error hs f = Some h /\ hist_for ic cl f h.
Definition true_red (imp : list Qc -> Qc) (T : table) (hs : list hist) (f b : nat) (ir : Qc) : Prop :=
  exists v, edge_at hs f b v /\ ir = reduction imp T f v.

Lemma hist_add_edges h X Y h' : hist_add h X Y = Ok h' -> exists e, h_edges h = Some e.
Proof.
  unfold hist_add. intros H. apply rbind_ok in H. destruct H as [? [_ H]].
  apply rbind_ok in H. destruct H as [e [E _]]. apply opt_res_ok in E. eauto.
Qed.

Lemma full_step_ok M c data labels hs :
  length labels = length data -> data <> [] ->
  step_ok M (s_measure c) data labels (Some (length data))
    (first_P (s_class c) (if s_class c then unique labels else []) hs) (fun _ _ => True)
    (true_red (imp_of M c) (combine data labels) hs).
Proof.
  intros L NE f h h' bs rv [Hn HF] HA HR. split; auto.
  destruct (hist_add_edges _ _ _ _ HA) as [edges E].
  destruct HF as [F1 F2 F3 F4 F5]. specialize (F5 _ E).
  destruct (hist_add_same _ _ _ _ HA) as [S1 [S2 [S3 [S4 [S5 [S6 [S7 S8]]]]]]].
  set (T := combine data labels) in *.
  assert (LT : length T = length data) by (unfold T; rewrite combine_length; lia).
  assert (NT : T <> []) by (destruct T; [destruct data; [contradiction|discriminate]|discriminate]).
  assert (LAB : labels_of T = labels) by (apply map_snd_combine; lia).
  destruct rv as [irs vs]. unfold imp_of, true_red. destruct (s_class c) eqn:C.
  - assert (ND : NoDup (h_classes h)) by (rewrite F3; apply unique_nodup).
    destruct (hist_add_class h data labels h' edges [] HA F1 E F5 ND (class_inv_fresh h edges F4 F1 E)) as [_ CI].
    cbn [app] in CI. fold T in CI.
    destruct (class_reductions_spec M (s_measure c) h' edges T bs (Some (length data)) irs vs) as [K1 [K2 K3]]; auto; try congruence.
    { rewrite S3, F3, LAB. intros y I. now apply unique_in. }
    cbn [fst snd]. split; auto. split; auto. intros i b ir Hb Hi. destruct (K3 i b ir Hb Hi) as [e [He Hr]].
    exists e. rewrite S2, F2 in Hr. split; auto. exists h, edges. auto.
  - assert (RI := hist_add_regr_fresh _ _ _ _ _ HA F1 E F5 F4). fold T in RI. rewrite <- LT in HR.
    destruct (regr_reductions_spec M (s_measure c) h' edges T bs irs vs) as [K1 [K2 K3]]; auto; try congruence.
    cbn [fst snd]. split; auto. split; auto. intros i b ir Hb Hi. destruct (K3 i b ir Hb Hi) as [e [He Hr]].
    exists e. rewrite S2, F2 in Hr. split; auto. exists h, edges. auto.
Qed.

Lemma cell_eq_dec (x y : nat * nat) : {x = y} + {x <> y}.
Proof. decide equality; apply Nat.eq_dec. Defined.

(** Which cells are arms. *)
Definition arms (hs : list hist) (F B : nat) (nc : list (nat * nat)) (cons : list (nat * nat)) :=
  if negb (length nc =? 0) then cons else cells F B.

Lemma arms_by_feature hs F B : by_feature (arms hs F B (not_of B hs) (cons_of hs)).
Proof. unfold arms. destruct (negb _); [apply cons_of_by_feature|apply cells_by_feature]. Qed.
Lemma arms_nodup hs F B : NoDup (arms hs F B (not_of B hs) (cons_of hs)).
Proof. unfold arms. destruct (negb _); [apply cons_of_nodup|apply cells_nodup]. Qed.
Lemma arms_in hs F B f b : length hs = F ->
  (forall f b, In (f, b) (arms hs F B (not_of B hs) (cons_of hs)) -> f < F /\ b < B) ->
  (In (f, b) (arms hs F B (not_of B hs) (cons_of hs)) <->
   b < B /\ exists h, nth_error hs f = Some h /\ b < h_nb h).
Proof.
  intros L R. split.
  - intros I. split; [now apply R in I|]. unfold arms in I. destruct (negb (length (not_of B hs) =? 0)) eqn:N.
    + now apply cons_of_in.
    + apply negb_false_iff, Nat.eqb_eq in N. apply cells_in in I. destruct I as [I1 I2].
      destruct (nth_error hs f) as [h|] eqn:E; [|apply nth_error_None in E; lia].
      exists h. split; auto. destruct (le_lt_dec (h_nb h) b) as [X|X]; auto.
      assert (In (f, b) (not_of B hs)) by (apply not_of_in; exists h; auto).
      destruct (not_of B hs); [destruct H|discriminate].
  - intros [Hb [h [E Hh]]]. unfold arms. destruct (negb _).
    + apply cons_of_in. eauto.
    + apply cells_in. split; auto. rewrite <- L. apply nth_error_Some. congruence.
Qed.

Definition lex_le (f b f' b' : nat) : Prop := f < f' \/ (f = f' /\ b <= b').

Lemma cells_sorted F B : StronglySorted (fun x y => lex_le (fst x) (snd x) (fst y) (snd y)) (cells F B).
Proof.
  unfold cells. assert (G : forall n k m, StronglySorted (fun x y => lex_le (fst x) (snd x) (fst y) (snd y)) (list_prod (seq k n) (seq 0 m)) /\ forall x, In x (list_prod (seq k n) (seq 0 m)) -> k <= fst x).
  { induction n as [|n IH]; intros k m; cbn; [split; [constructor|intros x []]|].
    destruct (IH (S k) m) as [S1 L1].
    assert (A : forall s m, StronglySorted (fun x y => lex_le (fst x) (snd x) (fst y) (snd y)) (map (fun b => (k, b)) (seq s m) ++ list_prod (seq (S k) n) (seq 0 m)) \/ True) by auto.
    clear A. split.
    - assert (A : forall j s, StronglySorted (fun x y => lex_le (fst x) (snd x) (fst y) (snd y)) (map (fun b => (k, b)) (seq s j) ++ list_prod (seq (S k) n) (seq 0 m))).
      { induction j as [|j IHj]; intros s; cbn; auto. constructor; auto.
        rewrite Forall_forall. intros [f b] I. unfold lex_le. cbn. apply in_app_iff in I. destruct I as [I|I].
        - apply in_map_iff in I. destruct I as [x [Q I]]. injection Q as <- <-. apply in_seq in I. right. lia.
        - apply L1 in I. cbn in I. lia. }
      apply A.
    - intros x I. apply in_app_iff in I. destruct I as [I|I].
      + apply in_map_iff in I. destruct I as [b [<- _]]. cbn. lia.
      + apply L1 in I. lia. }
  apply G.
Qed.

Lemma filter_first {A} (R : A -> A -> Prop) (p : A -> bool) l x r :
  (forall a, R a a) -> StronglySorted R l -> filter p l = x :: r -> forall y, In y l -> p y = true -> R x y.
Proof.
  intros RR S. induction S as [|a l S IH F]; cbn; [discriminate|].
  destruct (p a) eqn:E; intros H y I P.
  - injection H as -> _. destruct I as [<-|I]; auto. rewrite Forall_forall in F. auto.
  - destruct I as [<-|I]; [congruence|]. eapply IH; eauto.
Qed.

Definition exact_spec (M : math) (c : scfg) (data : list (list Qc)) (labels : list Qc) (mir : Qc)
  (hs : list hist) (out : sres) : Prop :=
  let T := combine data labels in
  let red := reduction (imp_of M c) T in
  let B := bins_of c (length data) in
  (match out with
   | Found f v r q =>
       exists b, edge_at hs f b v /\ b < B /\ r = Fin (red f v) /\ (red f v < mir)%Qc /\
         (forall f' b' v', edge_at hs f' b' v' -> b' < B -> (red f v <= red f' v')%Qc /\
            (red f' v' = red f v -> lex_le f b f' b'))
   | NoSplit q => forall f' b' v', edge_at hs f' b' v' -> b' < B -> (mir <= red f' v')%Qc
   end) /\
  (exists fs, NoDup fs /\ (forall f, In f fs <-> exists b v, b < B /\ edge_at hs f b v) /\
     fs <> [] /\ sres_q out = length data * length fs).

Lemma exact_core M c data labels mir e0 out e1 r0 :
  solve_exactly M c data labels mir e0 = Ok (out, e1) ->
  length labels = length data -> nth_error data 0 = Some r0 ->
  good_config (s_bin c) (bins_of c (length data)) (length data) (s_minmax c) (s_dd c) ->
  exists mh, make_histograms (s_class c) data labels (s_minmax c) (s_dd c) (s_bin c)
               (bins_of c (length data)) (e_np e0) = Ok mh /\
    length (mh_hists mh) = length r0 /\
    e1 = set_np {| e_gen := e_gen e0; e_np := e_np e0; e_py := e_py e0; e_mem := e_mem e0; e_calls := S (e_calls e0) |} (mh_np mh) /\
    exact_spec M c data labels mir (mh_hists mh) out.
Proof.
  intros H LL Hr0 GC. unfold solve_exactly in H. cbn [alloc] in H. cbv zeta in H. cbn [e_np] in H.
  set (N := length data) in *. change (match s_bin c with IDENTITY => N | _ => s_nb c end) with (bins_of c N) in H.
  set (B := bins_of c N) in *.
  apply rbind_ok in H. destruct H as [r0' [E0 H]]. apply nth_res_ok in E0. rewrite Hr0 in E0. injection E0 as <-.
  set (F := length r0) in *.
  apply rbind_ok in H. destruct H as [mh [EM H]]. exists mh. split; auto.
  destruct (make_histograms_inv _ _ _ _ _ _ _ _ _ _ Hr0 GC EM) as [[I1 I2 I3 _] HL]. fold F in HL. split; auto.
  apply rbind_ok in H. destruct H as [[] [G1 H]]. apply guard_ok in G1.
  set (est0 := upd_const _ _ _) in H.
  apply rbind_ok in H. destruct H as [acc [EA H]].
  assert (HA : acc = arms (mh_hists mh) F B (mh_not mh) (mh_cons mh) /\ acc <> []).
  { unfold accesses in EA. unfold arms. destruct (if negb (length (mh_not mh) =? 0) then mh_cons mh else cells F B); [discriminate|].
    injection EA as <-. split; auto. discriminate. }
  destruct HA as [HA NA]. rewrite I2, I3 in HA.
  set (hs := mh_hists mh) in *.
  assert (BF : by_feature acc) by (rewrite HA; apply arms_by_feature).
  assert (NDA : NoDup acc) by (rewrite HA; apply arms_nodup).
  apply rbind_ok in H. destruct H as [s [ES H]].
  unfold sample_targets in ES. fold N in ES.
  destruct (draw_rows_all N N [] (le_n N)) as [rest [ED _]]. rewrite ED in ES. cbn [rbind] in ES.
  assert (TD : take_idx data (arange N) = Ok data) by apply take_idx_all.
  assert (TL : take_idx labels (arange N) = Ok labels) by (rewrite <- LL; apply take_idx_all).
  rewrite TD in ES. cbn [rbind] in ES. rewrite TL in ES. cbn [rbind] in ES.
  apply rbind_ok in ES. destruct ES as [st [EF ES]]. injection ES as <-. cbn [sr_ir sr_hists sr_q] in H.
  apply rbind_ok in H. destruct H as [est [EAS H]]. apply assign_ok in EAS. destruct EAS as [LA [RA ->]].
  destruct (f2bin_spec acc BF) as [FL [NDK _]].
  assert (NE : data <> []) by (intros ->; discriminate).
  set (T := combine data labels) in *. set (red := reduction (imp_of M c) T).
  destruct (st_fold M (s_measure c) data labels (Some N) _ _ _ (full_step_ok M c data labels hs LL NE) _ _ _ EF NDK)
    as [A1 [_ [_ [A4 [A5 [[irs [cbs [B1 [_ [B3 [_ B5]]]]]] _]]]]]].
  { intros f h _ Hn. cbn in Hn. split; auto. }
  cbn [st_hists st_q st_ir app] in A1, A4, A5, B1. rewrite FL in B3, B5.
  assert (RA' : forall f b, In (f, b) (arms hs F B (not_of B hs) (cons_of hs)) -> f < F /\ b < B) by (rewrite <- HA; auto).
  assert (AI := fun f b => arms_in hs F B f b HL RA'). rewrite <- HA in AI.
  assert (ARM : forall f b, In (f, b) acc <-> b < B /\ exists v, edge_at hs f b v).
  { intros f b. rewrite AI. split; intros [Hb K]; split; auto.
    - destruct K as [h [E K]]. destruct (I1 f h E) as [_ _ _ Fr _]. eapply edge_at_nb; eauto.
    - destruct K as [v K]. destruct K as [h [e [K1 K2]]]. exists h. split; auto.
      destruct (I1 f h K1) as [_ _ _ Fr _]. eapply edge_at_lt; eauto. exists h, e. eauto. }
  assert (VAL : forall f b v, In (f, b) acc -> edge_at hs f b v -> upds est0 acc (st_ir st) f b = Fin (red f v)).
  { intros f b v I E. destruct (upds_in acc (st_ir st) est0 f b NDA LA I) as [i [J1 J2]].
    rewrite B1, nth_error_map in J2. destruct (nth_error irs i) as [ir|] eqn:J3; [|discriminate]. cbn in J2.
    injection J2 as J2. rewrite <- B1 in J2. rewrite <- J2.
    destruct (B5 i f b ir J1 J3) as [v' [E' ->]]. rewrite (edge_at_fun _ _ _ _ _ E E'). reflexivity. }
  assert (OUT : forall f b, f < F -> b < B -> ~ In (f, b) acc -> upds est0 acc (st_ir st) f b = PInf).
  { intros f b Hf Hb NI. rewrite upds_other by auto. unfold est0. apply upd_const_in. rewrite I3. fold hs. apply not_of_in.
    destruct (nth_error hs f) as [h|] eqn:E; [|apply nth_error_None in E; lia].
    exists h. split; auto. split; auto. destruct (le_lt_dec (h_nb h) b); auto. exfalso. apply NI, AI. eauto. }
  apply rbind_ok in H. destruct H as [best [EB H]].
  destruct (best_cells_spec _ _ _ _ EB) as [NB [m [_ [BE [BI BL]]]]].
  { intros f b Hf Hb. destruct (in_dec cell_eq_dec (f, b) acc) as [I|I].
    - pose proof (proj1 (ARM f b) I) as [_ [v E]]. now rewrite (VAL f b v I E).
    - now rewrite OUT. }
  destruct best as [|[bf bb] best']; [contradiction|].
  destruct (BI bf bb (or_introl eq_refl)) as [Hbf [Hbb Hm]].
  (* the best cell is an arm *)
  assert (BA : In (bf, bb) acc).
  { destruct (in_dec cell_eq_dec (bf, bb) acc) as [I|I]; auto.
    exfalso. rewrite (OUT bf bb Hbf Hbb I) in Hm. subst m.
    destruct acc as [|[f b] acc']; [contradiction|].
    pose proof (proj1 (ARM f b) (or_introl eq_refl)) as [Hb [v E]].
    pose proof (RA f b (or_introl eq_refl)) as [Hf _].
    specialize (BL f b Hf Hb). rewrite (VAL f b v (or_introl eq_refl) E) in BL. discriminate. }
  pose proof (proj1 (ARM bf bb) BA) as [_ [bv BV]].
  assert (Hm2 : m = Fin (red bf bv)) by (rewrite <- Hm; now apply VAL).
  apply rbind_ok in H. destruct H as [r [EFin H]]. injection H as -> <-.
  split; [reflexivity|].
  unfold finish in EFin. cbn [fst snd] in EFin.
  apply rbind_ok in EFin. destruct EFin as [h' [K1 K]].
  apply rbind_ok in K. destruct K as [ed [K2 K]].
  apply rbind_ok in K. destruct K as [v [K3 K]]. rewrite Hm, Hm2 in K.
  apply nth_res_ok in K1. apply opt_res_ok in K2. apply nth_res_ok in K3.
  assert (v = bv).
  { destruct BV as [h [e [V1 [V2 V3]]]]. destruct (A4 bf h V1) as [h2 [W1 [W2 _]]].
    rewrite K1 in W1. injection W1 as <-. rewrite W2, V2 in K2. injection K2 as <-. congruence. }
  subst v.
  assert (ALL : forall f' b' v', edge_at hs f' b' v' -> b' < B ->
     (red bf bv <= red f' v')%Qc /\ (red f' v' = red bf bv -> lex_le bf bb f' b')).
  { intros f' b' v' E' Hb'. assert (I' : In (f', b') acc) by (apply ARM; eauto).
    pose proof (RA f' b' I') as [Hf' _]. split.
    - specialize (BL f' b' Hf' Hb'). rewrite Hm2, (VAL f' b' v' I' E') in BL. now apply xle_fin.
    - intros Q. symmetry in BE.
      apply (filter_first _ _ _ _ _ (fun a => or_intror (conj eq_refl (le_n _))) (cells_sorted F B) BE (f', b')).
      + apply cells_in. split; assumption.
      + cbn [fst snd]. apply xeq_eq. rewrite (VAL f' b' v' I' E'), Hm2, Q. split; reflexivity. }
  assert (QQ : exists fs, NoDup fs /\ (forall f, In f fs <-> exists b v, b < B /\ edge_at hs f b v) /\ fs <> [] /\ st_q st = N * length fs).
  { exists (map fst (f2bin acc)). split; auto. split.
    - intros f. rewrite (f2bin_keys acc f BF). rewrite in_map_iff. split.
      + intros [[f' b] [<- I]]. cbn. exists b. apply ARM in I. destruct I as [I [v I']]. eauto.
      + intros [b [v [Hb E]]]. exists (f, b). split; auto. apply ARM. eauto.
    - split.
      + intros Z. destruct acc as [|[f b] acc']; [contradiction|].
        assert (I : In f (map fst (f2bin ((f, b) :: acc')))) by (apply f2bin_keys; auto; now left).
        rewrite Z in I. destruct I.
      + rewrite A5, map_length. fold N. cbn. lia. }
  unfold exact_spec. fold T. fold red. fold N. fold B. injection K as <-.
  cbn [xlt]. destruct (qlt (red bf bv) mir) eqn:QL.
  - split; [|exact QQ]. exists bb. split; auto. split; auto. split; auto. split; [now apply qlt_spec|exact ALL].
  - split; [|exact QQ]. intros f' b' v' E' Hb'. apply qlt_false in QL. eapply qle_trans; [exact QL|]. eapply ALL; eauto.
Qed.

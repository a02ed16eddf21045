(** Adding a column that is no better than the others, and dropping columns that are not used. *)
From Coq Require Import List Arith Bool ZArith QArith Qcanon Lia Sorted Permutation.
From Verif Require Import Base Num Rng Histogram Utils Criteria Solvers Tree Spec SolverSpec TreeSpec InvarSpec ColSpec NumFacts ListFacts HistFacts HistAdd CritFacts ReductionFacts MakeHist SampleFacts ExactProps DrawFacts CountFacts TreeFacts TreeThms MoveFacts TreeSim ColSim.
Import ListNotations.
Local Open Scope nat_scope.

(** ** Reductions and candidates depend on one column only *)
Definition keys (f : nat) (T : table) : list (Qc * Qc) := map (fun r => (value_of f r, snd r)) T.
Lemma left_keys f v T : labels_of (left_part f v T) = map snd (filter (fun p : Qc * Qc => if Qclt_le_dec v (fst p) then false else true) (keys f T)).
Proof. unfold left_part, is_left. induction T as [|r T IH]; cbn; auto. destruct (Qclt_le_dec v (value_of f r)); cbn; [exact IH|now f_equal]. Qed.
Lemma right_keys f v T : labels_of (right_part f v T) = map snd (filter (fun p : Qc * Qc => negb (if Qclt_le_dec v (fst p) then false else true)) (keys f T)).
Proof. unfold right_part, is_left. induction T as [|r T IH]; cbn; auto. destruct (Qclt_le_dec v (value_of f r)); cbn; [now f_equal|exact IH]. Qed.
Lemma labels_keys f T : labels_of T = map snd (keys f T).
Proof. unfold labels_of, keys. rewrite map_map. reflexivity. Qed.
Lemma labels_of_len T : length (labels_of T) = length T.
Proof. apply map_length. Qed.
Lemma reduction_keys imp T f T' f' v : keys f T = keys f' T' -> reduction imp T f v = reduction imp T' f' v.
Proof.
  intros K. unfold reduction. assert (A : labels_of (left_part f v T) = labels_of (left_part f' v T')) by (now rewrite !left_keys, K). assert (B : labels_of (right_part f v T) = labels_of (right_part f' v T')) by (now rewrite !right_keys, K).
  assert (C : labels_of T = labels_of T') by (now rewrite (labels_keys f), K, <- labels_keys).
  rewrite <- (labels_of_len (left_part f v T)), <- (labels_of_len (right_part f v T)), <- (labels_of_len T), A, B, C, !labels_of_len. reflexivity.
Qed.
Lemma keys_picked X Y I k : keys k (picked X Y I) = map (fun i => (cell X i k, nth i Y 0%Qc)) I.
Proof. unfold keys, picked, cell, value_of. rewrite map_map. reflexivity. Qed.
Lemma keys_sub X Y gs I j k : nth_error gs j = Some k -> keys j (combine (sub X gs I) (labels_at Y I)) = map (fun i => (cell X i k, nth i Y 0%Qc)) I.
Proof.
  intros E. unfold sub, labels_at. induction I as [|i I IH]; cbn; auto. f_equal; [|exact IH]. unfold value_of. cbn [fst]. f_equal.
  erewrite nth_error_nth; [reflexivity|]. now rewrite nth_error_map, E.
Qed.
Lemma values_sub X gs I j k : nth_error gs j = Some k -> feature_values (sub X gs I) j = map (fun i => cell X i k) I.
Proof.
  intros E. unfold feature_values, sub. rewrite map_map. apply map_ext. intros i. erewrite nth_error_nth; [reflexivity|]. now rewrite nth_error_map, E.
Qed.
Lemma values_rows X I k : feature_values (map (fun i => nth i X []) I) k = map (fun i => cell X i k) I.
Proof. unfold feature_values. rewrite map_map. reflexivity. Qed.
Lemma candidates_values bt B data f data' f' E : feature_values data' f' = feature_values data f -> candidates bt B None data f E -> candidates bt B None data' f' E.
Proof. intros V. unfold candidates, range_of. rewrite V. auto. Qed.
Lemma candidates_bins bt B B' mm data f E : bt = IDENTITY -> candidates bt B mm data f E -> candidates bt B' mm data f E.
Proof. intros ->. auto. Qed.
Lemma reduction_same imp T f v f' v' : (forall r, In r T -> is_left f v r = is_left f' v' r) -> reduction imp T f v = reduction imp T f' v'.
Proof.
  intros H. unfold reduction, left_part, right_part. rewrite (filter_ext_in _ (is_left f' v') T H), (filter_ext_in (fun r => negb (is_left f v r)) (fun r => negb (is_left f' v' r)) T) by (intros r I; cbn beta; now rewrite (H r I)). reflexivity.
Qed.
Lemma reduction_swap imp T f v f' v' : (forall r, In r T -> is_left f v r = negb (is_left f' v' r)) -> reduction imp T f v = reduction imp T f' v'.
Proof.
  intros H. unfold reduction, left_part, right_part. rewrite (filter_ext_in _ (fun r => negb (is_left f' v' r)) T H), (filter_ext_in (fun r => negb (is_left f v r)) (is_left f' v') T) by (intros r I; cbn beta; rewrite (H r I); apply negb_involutive). ring.
Qed.
Lemma is_left_spec f v r : is_left f v r = qle (value_of f r) v.
Proof. unfold is_left. destruct (Qclt_le_dec v (value_of f r)) as [H|H]; symmetry; [apply qle_false; auto|apply qle_spec; auto]. Qed.
Lemma furthest {A} (g : A -> Qc) l : l <> [] -> exists m, In m l /\ forall x, In x l -> (g x <= g m)%Qc.
Proof.
  induction l as [|y l IH]; [contradiction|]. intros _. destruct l as [|w l]; [exists y; split; [now left|intros x [<-|[]]; apply Qcle_refl]|].
  destruct IH as [m [Im Hm]]; [discriminate|]. destruct (Qclt_le_dec (g y) (g m)) as [L|L].
  - exists m. split; [now right|]. intros x [<-|Hx]; auto. now apply Qclt_le_weak.
  - exists y. split; [now left|]. intros x [<-|Hx]; [apply Qcle_refl|]. eapply Qcle_trans; eauto.
Qed.
Lemma greatest_exists l : l <> [] -> exists m, greatest l m.
Proof. intros H. destruct (furthest (fun x => x) l H) as [m Hm]. exists m. exact Hm. Qed.
Lemma least_exists l : l <> [] -> exists m, least l m.
Proof. intros H. destruct (furthest (fun x => (- x)%Qc) l H) as [m [Im Hm]]. exists m. split; auto. intros x Hx. apply Hm in Hx. clear - Hx. qlra. Qed.
Lemma candidates_exist bt B data f : data <> [] -> bt = LINEAR \/ bt = IDENTITY -> exists E, candidates bt B None data f E.
Proof.
  intros NE [->| ->]; cbn [candidates].
  - assert (NV : feature_values data f <> []) by (unfold feature_values; destruct data; [contradiction|discriminate]). destruct (least_exists _ NV) as [lo HL]. destruct (greatest_exists _ NV) as [hi HG].
    destruct (Qc_eq_dec lo hi) as [E|E]; [exists [], lo, hi|eexists _, lo, hi]; (split; [split; auto|]); [now left|right; split; auto].
  - exists (unique (feature_values data f)). split; [apply unique_sorted|]. intros x. apply unique_in.
Qed.

(** ** The answer of the search, up to its cost *)
Definition set_q (out : sres) (q : nat) : sres := match out with Found f v r _ => Found f v r q | NoSplit _ => NoSplit q end.
Lemma right_q red mir W E out q : right_answer red mir W E out -> right_answer red mir W E (set_q out q).
Proof. destruct out; auto. Qed.
Lemma exact_is M sc data labels W e E out : solvable sc data labels W -> s_bin sc = LINEAR \/ s_bin sc = IDENTITY ->
  (forall f, f < W -> candidates (s_bin sc) (nbins sc data) (s_minmax sc) data f (E f)) -> busy_features W E <> [] ->
  right_answer (reduction (impurity M sc) (combine data labels)) 0%Qc W E out -> exists q e1, solve_exactly M sc data labels 0%Qc e = Ok (set_q out q, e1).
Proof.
  intros S BT HC HB HR. destruct (exact_answers sc data labels W S M 0%Qc e E HC HB) as [out' [e1' H']]. destruct (exact_answer sc data labels W S _ _ _ _ _ H') as [E2 [HC2 [HR2 [HB2 [HQ2 _]]]]].
  exists (sres_q out'), e1'. rewrite H'. f_equal. f_equal. assert (EE : forall f, f < W -> E2 f = E f) by (intros f Hf; eapply candidates_unique; [|apply HC2; auto|apply HC; auto]; auto).
  eapply right_unique; [exact HR2| |destruct out; reflexivity]. apply right_q. apply right_ext with (red := reduction (impurity M sc) (combine data labels)) (E := E); auto. intros f Hf. symmetry. auto.
Qed.
Lemma busy_in W E f : In f (busy_features W E) <-> f < W /\ E f <> [].
Proof. unfold busy_features. rewrite filter_In, in_seq. destruct (E f); intuition; try discriminate; try lia; try contradiction. Qed.
Lemma busy_ne W E f : f < W -> E f <> [] -> busy_features W E <> [].
Proof. intros A B C. assert (H : In f (busy_features W E)) by (apply busy_in; auto). rewrite C in H. destruct H. Qed.
Lemma busy_some W E : busy_features W E <> [] -> exists f, f < W /\ E f <> [].
Proof. intros H. destruct (busy_features W E) as [|f l] eqn:B; [contradiction|]. exists f. apply busy_in. rewrite B. now left. Qed.

(** ** One more column *)
Section Add.
Context (M : math) (c : tcfg) (a : targs) (W : nat) (x : list Qc).
Context (TR : trainable c a W) (AC : all_columns c) (LX : length x = length (ta_data a)).
Notation a' := (add_column W x a).
Notation D := (ta_data a).
Notation D' := (ta_data a').
Notation L := (ta_labels a).
Notation fs := (train_feats a).
Lemma add_row i : i < length D -> nth i D' [] = nth i D [] ++ [nth i x 0%Qc].
Proof.
  intros H. cbn [add_column ta_data].
  erewrite nth_error_nth; [reflexivity|]. rewrite nth_error_map. erewrite (nth_error_nth' _ ([], 0%Qc)) by (rewrite combine_length; lia). rewrite combine_nth by congruence. reflexivity.
Qed.
Lemma row_in i : In i (train_rows a) -> i < length D.
Proof. intros H. rewrite <- (tr_len _ _ _ TR). now apply (tr_rows_in _ _ _ TR). Qed.
Lemma row_width i : i < length D -> length (nth i D []) = W.
Proof. intros H. apply (tr_rect _ _ _ TR). now apply nth_In. Qed.
Lemma add_cell i k : In i (train_rows a) -> k < W -> cell D' i k = cell D i k.
Proof. intros H K. apply row_in in H. unfold cell. rewrite add_row by auto. rewrite app_nth1; auto. now rewrite row_width. Qed.
Lemma add_new i : In i (train_rows a) -> cell D' i W = nth i x 0%Qc.
Proof. intros H. apply row_in in H. unfold cell. rewrite add_row by auto. rewrite app_nth2; rewrite row_width by auto; auto. now rewrite Nat.sub_diag. Qed.
Lemma add_feats : train_feats a' = fs ++ [W].
Proof.
  unfold train_feats. cbn [add_column ta_feats]. destruct (ta_feats a); auto. cbn [option_map]. assert (N : 0 < length D) by (pose proof (train_nonempty _ _ _ TR); destruct D; [contradiction|cbn; lia]).
  rewrite (add_row 0 N), app_length, row_width by auto. cbn [length]. rewrite seq_app. reflexivity.
Qed.
Lemma add_rows : train_rows a' = train_rows a.
Proof. reflexivity. Qed.
Lemma add_trainable : trainable c a' (S W).
Proof.
  destruct AC as (_ & _ & _ & FS & MM). destruct TR as [T1 T2 T3 T4 T5 T6 T7 T8 T9 T10 T11 T12 T13 T14]. constructor; auto.
  - cbn. rewrite map_length, combine_length. lia.
  - intros r H. cbn in H. apply in_map_iff in H. destruct H as [[r0 v] [<- H]]. apply in_combine_l in H. cbn. rewrite app_length. cbn. rewrite (T2 _ H). lia.
  - rewrite add_feats. intros Z. apply app_eq_nil in Z. destruct Z. discriminate.
  - rewrite add_feats. intros f H. apply in_app_iff in H. destruct H as [H|[<-|[]]]; [|lia]. apply T6 in H. lia.
  - rewrite FS. exact I.
  - rewrite MM. exact I.
Qed.
Lemma feat_lt k : In k fs -> k < W.
Proof. apply (tr_feats_in _ _ _ TR). Qed.
Context (ID : idle M c a W x).
Lemma add_search I nb e e' out e1 : I <> [] -> incl I (train_rows a) ->
  solvable (scfg_of c nb) (sub D fs I) (labels_at L I) (length fs) -> solvable (scfg_of c nb) (sub D' (train_feats a') I) (labels_at L I) (length (train_feats a')) ->
  solve_exactly M (scfg_of c nb) (sub D fs I) (labels_at L I) 0%Qc e = Ok (out, e1) ->
  exists out' e1', solve_exactly M (scfg_of c nb) (sub D' (train_feats a') I) (labels_at L I) 0%Qc e' = Ok (out', e1') /\ out_sim (fun k => k) fs (train_feats a') out out'.
Proof.
  intros NE IN S S' H. destruct AC as (_ & BT & _ & _ & _). destruct (exact_answer _ _ _ _ S _ _ _ _ _ H) as [E [HC [HR [HB [_ _]]]]].
  assert (BT2 : s_bin (scfg_of c nb) = LINEAR \/ s_bin (scfg_of c nb) = IDENTITY) by exact BT.
  rewrite add_feats in *. set (sc := scfg_of c nb) in *. set (F := length fs) in *. rewrite app_length in *. cbn [length] in *. fold F in S' |- *.
  set (T' := picked D' (ta_labels a') I). set (X := map (fun i => nth i D' []) I).
  assert (NK : forall j k, nth_error fs j = Some k -> nth_error (fs ++ [W]) j = Some k) by (intros j k Hj; rewrite nth_error_app1; auto; apply nth_error_Some; congruence).
  assert (NW : nth_error (fs ++ [W]) F = Some W) by (unfold F; rewrite nth_error_app2, Nat.sub_diag by auto; reflexivity).
  assert (VO : forall k, In k fs -> map (fun i => cell D' i k) I = map (fun i => cell D i k) I) by (intros k Hk; apply map_ext_in; intros i Hi; apply add_cell; [now apply IN|now apply feat_lt]).
  (* the candidates of the new column *)
  assert (CW : exists EW, candidates (s_bin sc) (nbins sc (sub D' (fs ++ [W]) I)) None (sub D' (fs ++ [W]) I) F EW).
  { apply candidates_exist; [apply S'|exact BT2]. }
  destruct CW as [EW CW].
  assert (NBE : nbins sc (sub D' (fs ++ [W]) I) = nbins sc (sub D fs I)) by (unfold nbins, sub; now rewrite !map_length).
  set (E' := fun j => if j <? F then E j else EW).
  assert (EO : forall j, j < F -> E' j = E j) by (intros j Hj; unfold E'; apply Nat.ltb_lt in Hj; now rewrite Hj).
  assert (EF : E' F = EW) by (unfold E'; now rewrite Nat.ltb_irrefl).
  assert (FK : forall j, j < F -> exists k, nth_error fs j = Some k /\ In k fs).
  { intros j Hj. destruct (nth_error fs j) as [k|] eqn:Z; [exists k; split; auto; eapply nth_error_In; eauto|]. apply nth_error_None in Z. unfold F in Hj. lia. }
  assert (HC' : forall j, j < F + 1 -> candidates (s_bin sc) (nbins sc (sub D' (fs ++ [W]) I)) (s_minmax sc) (sub D' (fs ++ [W]) I) j (E' j)).
  { intros j Hj. destruct (Nat.eq_dec j F) as [->|NF]; [now rewrite EF|]. assert (Hj2 : j < F) by lia. rewrite EO by auto. destruct (FK j Hj2) as [k [K1 K2]]. rewrite NBE. change (s_minmax sc) with (@None (list Qc * list Qc)) in *.
    eapply candidates_values; [|apply HC; auto]. rewrite (values_sub D' _ _ _ _ (NK _ _ K1)), (values_sub D _ _ _ _ K1). now apply VO. }
  assert (RO : forall j v, j < F -> reduction (impurity M sc) (combine (sub D' (fs ++ [W]) I) (labels_at L I)) j v = reduction (impurity M sc) (combine (sub D fs I) (labels_at L I)) j v).
  { intros j v Hj. destruct (FK j Hj) as [k [K1 K2]]. apply reduction_keys. rewrite (keys_sub D' _ _ _ _ _ (NK _ _ K1)), (keys_sub D _ _ _ _ _ K1). apply map_ext_in. intros i Hi. f_equal. apply add_cell; [now apply IN|now apply feat_lt]. }
  assert (ROP : forall j k v, nth_error fs j = Some k -> reduction (impurity M sc) (combine (sub D fs I) (labels_at L I)) j v = reduction (impurity M sc) T' k v).
  { intros j k v Hk. apply reduction_keys. rewrite (keys_sub D _ _ _ _ _ Hk). unfold T'. rewrite keys_picked. apply map_ext_in. intros i Hi. cbn [add_column ta_labels]. f_equal. symmetry. apply add_cell; [now apply IN|]. apply feat_lt. eapply nth_error_In; eauto. }
  assert (RW : forall v, reduction (impurity M sc) (combine (sub D' (fs ++ [W]) I) (labels_at L I)) F v = reduction (impurity M sc) T' W v).
  { intros v. apply reduction_keys. rewrite (keys_sub D' _ _ _ _ _ NW). unfold T'. now rewrite keys_picked. }
  (* the new column is never strictly better *)
  assert (WO : forall v, In v EW -> exists j v', j < F /\ In v' (E j) /\ (reduction (impurity M sc) (combine (sub D fs I) (labels_at L I)) j v' <= reduction (impurity M sc) (combine (sub D' (fs ++ [W]) I) (labels_at L I)) F v)%Qc).
  { intros v Hv. destruct (ID I (nbins sc (sub D fs I)) EW v NE IN) as (k & Hk & HH); [|exact Hv|].
    - eapply candidates_values; [|rewrite NBE in CW; exact CW]. rewrite values_rows. symmetry. now apply values_sub.
    - destruct (In_nth_error _ _ Hk) as [j Hj]. assert (Lj : j < F) by (unfold F; apply nth_error_Some; congruence). destruct (HH (E j)) as (v' & Iv' & LE).
      + eapply candidates_values; [|apply HC; auto]. rewrite values_rows, (values_sub D _ _ _ _ Hj). now apply VO.
      + exists j, v'. split; auto. split; auto. rewrite (ROP _ _ _ Hj), RW. exact LE. }
  assert (RA : right_answer (reduction (impurity M sc) (combine (sub D' (fs ++ [W]) I) (labels_at L I))) 0%Qc (F + 1) E' out).
  { destruct out as [f v r q|q]; cbn [right_answer] in *.
    - destruct HR as [Hf [b [N [-> [MI H5]]]]]. split; [lia|]. exists b. rewrite EO, RO by auto. split; auto. split; auto. split; auto. intros f' b' v' Hf' N'. destruct (Nat.eq_dec f' F) as [->|NF].
      + rewrite EF in N'. destruct (WO v' (nth_error_In _ _ N')) as (j & w & Hj & Iw & LE). apply In_nth_error in Iw. destruct Iw as [bw Iw]. split; [|intros _; left; auto]. eapply Qcle_trans; [|exact LE]. eapply H5; eauto.
      + assert (Hf2 : f' < F) by lia. rewrite EO in N' by auto. rewrite RO by auto. now apply H5.
    - intros f' v' Hf' I'. destruct (Nat.eq_dec f' F) as [->|NF].
      + rewrite EF in I'. destruct (WO v' I') as (j & w & Hj & Iw & LE). eapply Qcle_trans; [|exact LE]. now apply HR.
      + assert (Hf2 : f' < F) by lia. rewrite EO in I' by auto. rewrite RO by auto. now apply HR. }
  destruct (exact_is M sc (sub D' (fs ++ [W]) I) (labels_at L I) (F + 1) e' E' out S' BT2 HC') as (q & e2 & HH); auto.
  - destruct (busy_some _ _ HB) as [f [Hf Z]]. apply busy_ne with (f := f); [lia|now rewrite EO].
  - exists (set_q out q), e2. split; auto. destruct out as [f v r q0|q0]; cbn; auto. split; auto. split; auto. cbn [right_answer] in HR. destruct (FK f (proj1 HR)) as [k [K1 K2]]. exists k. split; auto.
Qed.
Lemma idle_column P e e' t : ta_dd a = None -> ta_budget a = None -> built P M c a e t ->
  exists t', built P M c a' e' t' /\ col_tree (fun k => k) t t' /\ forall r v, length r = W -> answer (tree_predict c t' (r ++ [v])) = answer (tree_predict c t r).
Proof.
  intros DD BU H. destruct (columns_tree M c a a' W (S W) (fun k => k) (fun _ => True) TR add_trainable AC DD DD BU BU eq_refl eq_refl) with (P := P) (e := e) (e' := e') (t := t) as (t' & H' & CT & PR); auto.
  - intros k i Hk _ Hi. apply add_cell; auto. now apply feat_lt.
  - intros I nb e0 e0' out e1 NE IN _ S S' HH _. eapply add_search; eauto.
  - exists t'. split; auto. split; auto. intros r v Hr. apply PR. intros k Hk _. rewrite nth_error_app1; auto. rewrite Hr. now apply feat_lt.
Qed.
End Add.

(** ** Functions of a column *)
Lemma monotone_idle M c a W x k : trainable c a W -> all_columns c -> length x = length (ta_data a) -> tc_bin c = IDENTITY -> In k (train_feats a) ->
  (forall i j, In i (train_rows a) -> In j (train_rows a) -> (cell (ta_data a) i k <= cell (ta_data a) j k)%Qc -> (nth i x 0 <= nth j x 0)%Qc) \/
  (forall i j, In i (train_rows a) -> In j (train_rows a) -> (cell (ta_data a) i k <= cell (ta_data a) j k)%Qc -> (nth j x 0 <= nth i x 0)%Qc) -> idle M c a W x.
Proof.
  intros TR AC LX BI HK MO I nb E v NE IN a' X CE IV. rewrite BI in *. cbn [candidates] in CE. destruct CE as [_ CE]. apply CE in IV. unfold X in IV. rewrite values_rows in IV. apply in_map_iff in IV. destruct IV as [i [Ei Ii]].
  assert (KW : k < W) by now apply (feat_lt c a W TR). unfold a' in *. rewrite (add_new c a W x TR LX) in Ei by now apply IN.
  exists k. split; auto. intros E' [_ CE']. unfold X in CE'. rewrite values_rows in CE'. set (T := picked _ _ I).
  assert (PT : forall r, In r T -> exists j, In j I /\ value_of W r = nth j x 0%Qc /\ value_of k r = cell (ta_data a) j k).
  { intros r Hr. unfold T, picked in Hr. apply in_map_iff in Hr. destruct Hr as [j [<- Hj]]. exists j. split; auto. split; [apply (add_new c a W x TR LX); now apply IN|apply (add_cell c a W x TR LX); auto]. }
  assert (GO : forall m, In m I -> In (cell (ta_data a) m k) E') by (intros m Hm; apply CE'; apply in_map_iff; exists m; split; auto; apply (add_cell c a W x TR LX); auto).
  destruct MO as [MO|MO].
  - destruct (furthest (fun j => cell (ta_data a) j k) (filter (fun j => qle (nth j x 0%Qc) v) I)) as [m [Im Hm]].
    { intros Z. assert (Q : In i (filter (fun j => qle (nth j x 0%Qc) v) I)) by (apply filter_In; split; auto; apply qle_spec; rewrite Ei; apply Qcle_refl). rewrite Z in Q. destruct Q. }
    apply filter_In in Im. destruct Im as [Im Lm]. apply qle_spec in Lm. exists (cell (ta_data a) m k). split; [now apply GO|].
    assert (EQ : reduction (tree_impurity M c) T k (cell (ta_data a) m k) = reduction (tree_impurity M c) T W v); [|rewrite EQ; apply Qcle_refl].
    apply reduction_same. intros r Hr. destruct (PT r Hr) as (j & Ij & E1 & E2). rewrite !is_left_spec, E1, E2. destruct (qle (nth j x 0%Qc) v) eqn:Q.
    + apply qle_spec. apply Hm. apply filter_In. auto.
    + apply qle_false. apply qle_false in Q. apply Qcnot_le_lt. intros Z. apply MO in Z; auto. apply (Qclt_not_le _ _ Q). eapply Qcle_trans; eauto.
  - destruct (filter (fun j => negb (qle (nth j x 0%Qc) v)) I) as [|j0 l] eqn:FL.
    + (* everything is on the left *)
      destruct (furthest (fun j => cell (ta_data a) j k) I NE) as [m [Im Hm]]. exists (cell (ta_data a) m k). split; [now apply GO|].
      assert (EQ : reduction (tree_impurity M c) T k (cell (ta_data a) m k) = reduction (tree_impurity M c) T W v); [|rewrite EQ; apply Qcle_refl].
      apply reduction_same. intros r Hr. destruct (PT r Hr) as (j & Ij & E1 & E2). rewrite !is_left_spec, E1, E2. rewrite (proj2 (qle_spec _ _) (Hm j Ij)). symmetry.
      destruct (qle (nth j x 0%Qc) v) eqn:Q; auto. assert (Z : In j []) by (rewrite <- FL; apply filter_In; split; auto; now rewrite Q). destruct Z.
    + destruct (furthest (fun j => cell (ta_data a) j k) (filter (fun j => negb (qle (nth j x 0%Qc) v)) I)) as [m [Im Hm]]; [rewrite FL; discriminate|].
      apply filter_In in Im. destruct Im as [Im Lm]. apply negb_true_iff, qle_false in Lm. exists (cell (ta_data a) m k). split; [now apply GO|].
      assert (EQ : reduction (tree_impurity M c) T k (cell (ta_data a) m k) = reduction (tree_impurity M c) T W v); [|rewrite EQ; apply Qcle_refl].
      apply reduction_swap. intros r Hr. destruct (PT r Hr) as (j & Ij & E1 & E2). rewrite !is_left_spec, E1, E2. destruct (qle (nth j x 0%Qc) v) eqn:Q; cbn [negb].
      * apply qle_false. apply qle_spec in Q. apply Qcnot_le_lt. intros Z. apply MO in Z; auto. apply (Qclt_not_le _ _ Lm). eapply Qcle_trans; eauto.
      * apply qle_spec. apply Hm. apply filter_In. rewrite Q. auto.
Qed.
Lemma affine_left (s d y v : Qc) : (0 < s)%Qc -> qle (s * y + d)%Qc (s * v + d)%Qc = qle y v.
Proof.
  intros S. destruct (qle y v) eqn:Q.
  - apply qle_spec. apply qle_spec in Q. assert (H : (0 <= s * (v - y))%Qc) by (apply qmult_le_0; clear - S Q; qlra). assert (E : (s * (v - y) = (s * v + d) - (s * y + d))%Qc) by ring. rewrite E in H. clear - H. qlra.
  - apply qle_false. apply qle_false in Q. assert (H : (0 < s * (y - v))%Qc) by (apply qmult_lt_0; [auto|clear - Q; qlra]). assert (E : (s * (y - v) = (s * y + d) - (s * v + d))%Qc) by ring. rewrite E in H. clear - H. qlra.
Qed.
Lemma affine_idle M c a W x k s d : trainable c a W -> all_columns c -> length x = length (ta_data a) -> In k (train_feats a) -> (0 <= s)%Qc ->
  (forall i, In i (train_rows a) -> nth i x 0%Qc = (s * cell (ta_data a) i k + d)%Qc) -> idle M c a W x.
Proof.
  intros TR AC LX HK S0 EX. destruct AC as (A1 & [BT|BT] & A3). 2:{ apply monotone_idle with (k := k); auto. { split; auto. } left. intros i j Hi Hj LE. rewrite !EX by auto. assert (H : (0 <= s * (cell (ta_data a) j k - cell (ta_data a) i k))%Qc) by (apply qmult_le_0; auto; clear - LE; qlra). assert (E : (s * (cell (ta_data a) j k - cell (ta_data a) i k) = (s * cell (ta_data a) j k + d) - (s * cell (ta_data a) i k + d))%Qc) by ring. rewrite E in H. clear - H. qlra. }
  assert (AC : all_columns c) by (split; auto). intros I nb E v NE IN a' X CE IV. rewrite BT in *. cbn [candidates] in CE. destruct CE as (lo & hi & [[ILO LO] [IHI HI]] & [[-> ->]|[NQ ->]]); [destruct IV|].
  assert (KW : k < W) by now apply (feat_lt c a W TR). subst X. subst a'. rewrite values_rows in ILO, LO, IHI, HI. exists k. split; auto. intros E' CE'. cbn [candidates] in CE'. destruct CE' as (lo' & hi' & [[ILO' LO'] [IHI' HI']] & CE'). rewrite values_rows in ILO', LO', IHI', HI'.
  assert (CN : forall i, In i I -> cell (ta_data (add_column W x a)) i W = (s * cell (ta_data a) i k + d)%Qc) by (intros i Hi; rewrite (add_new c a W x TR LX) by (now apply IN); apply EX; now apply IN).
  assert (CK : forall i, In i I -> cell (ta_data (add_column W x a)) i k = cell (ta_data a) i k) by (intros i Hi; apply (add_cell c a W x TR LX); auto).
  assert (MO : forall y w, (y <= w)%Qc -> (s * y + d <= s * w + d)%Qc).
  { intros y w LE. assert (H : (0 <= s * (w - y))%Qc) by (apply qmult_le_0; auto; clear - LE; qlra). assert (E : (s * (w - y) = (s * w + d) - (s * y + d))%Qc) by ring. rewrite E in H. clear - H. qlra. }
  apply in_map_iff in ILO. destruct ILO as [i1 [E1 I1]]. apply in_map_iff in IHI. destruct IHI as [i2 [E2 I2]]. apply in_map_iff in ILO'. destruct ILO' as [i3 [E3 I3]]. apply in_map_iff in IHI'. destruct IHI' as [i4 [E4 I4]].
  rewrite CN in E1, E2 by auto. rewrite CK in E3, E4 by auto.
  assert (QL : lo = (s * lo' + d)%Qc).
  { apply Qcle_antisym; [rewrite <- E3, <- CN by auto; apply LO; apply in_map_iff; eauto|rewrite <- E1; apply MO; apply LO'; apply in_map_iff; exists i1; split; auto]. }
  assert (QH : hi = (s * hi' + d)%Qc).
  { apply Qcle_antisym; [rewrite <- E2; apply MO; apply HI'; apply in_map_iff; exists i2; split; auto|rewrite <- E4, <- CN by auto; apply HI; apply in_map_iff; eauto]. }
  assert (SP : (0 < s)%Qc). { destruct (Qcle_lt_or_eq _ _ S0) as [|Z]; auto. exfalso. apply NQ. rewrite QL, QH, <- Z. ring. }
  destruct CE' as [[Z _]|[_ ->]]; [exfalso; apply NQ; rewrite QL, QH, Z; reflexivity|]. apply in_map_iff in IV. destruct IV as [b [<- Hb]].
  exists (lo' + (hi' - lo') * (rat b / rat (nb - 1)))%Qc. split; [apply in_map_iff; eauto|].
  match goal with |- (?u <= ?w)%Qc => assert (EQ : u = w); [|rewrite EQ; apply Qcle_refl] end.
  apply reduction_same. intros r Hr. unfold picked in Hr. apply in_map_iff in Hr. destruct Hr as [j [<- Hj]]. rewrite !is_left_spec.
  change (value_of k (nth j (ta_data (add_column W x a)) [], nth j (ta_labels (add_column W x a)) 0%Qc)) with (cell (ta_data (add_column W x a)) j k).
  change (value_of W (nth j (ta_data (add_column W x a)) [], nth j (ta_labels (add_column W x a)) 0%Qc)) with (cell (ta_data (add_column W x a)) j W).
  rewrite CN, CK by auto. symmetry. assert (EQ : (lo + (hi - lo) * (rat b / rat (nb - 1)) = s * (lo' + (hi' - lo') * (rat b / rat (nb - 1))) + d)%Qc) by (rewrite QL, QH; ring). rewrite EQ. now apply affine_left.
Qed.

Lemma monotone_column P M c a W x k e e' t : trainable c a W -> all_columns c -> ta_dd a = None -> ta_budget a = None -> length x = length (ta_data a) -> tc_bin c = IDENTITY -> In k (train_feats a) ->
  (forall i j, In i (train_rows a) -> In j (train_rows a) -> (cell (ta_data a) i k <= cell (ta_data a) j k)%Qc -> (nth i x 0 <= nth j x 0)%Qc) \/
  (forall i j, In i (train_rows a) -> In j (train_rows a) -> (cell (ta_data a) i k <= cell (ta_data a) j k)%Qc -> (nth j x 0 <= nth i x 0)%Qc) -> built P M c a e t ->
  exists t', built P M c (add_column W x a) e' t' /\ col_tree (fun k => k) t t' /\ forall r v, length r = W -> answer (tree_predict c t' (r ++ [v])) = answer (tree_predict c t r).
Proof. intros TR AC DD BU LX BI HK MO H. eapply idle_column; eauto. eapply monotone_idle; eauto. Qed.
Lemma affine_column P M c a W x k s d e e' t : trainable c a W -> all_columns c -> ta_dd a = None -> ta_budget a = None -> length x = length (ta_data a) -> In k (train_feats a) -> (0 <= s)%Qc ->
  (forall i, In i (train_rows a) -> nth i x 0%Qc = (s * cell (ta_data a) i k + d)%Qc) -> built P M c a e t ->
  exists t', built P M c (add_column W x a) e' t' /\ col_tree (fun k => k) t t' /\ forall r v, length r = W -> answer (tree_predict c t' (r ++ [v])) = answer (tree_predict c t r).
Proof. intros TR AC DD BU LX HK S0 EX H. eapply idle_column; eauto. eapply affine_idle; eauto. Qed.
Lemma idle_tree P M c a W x e e' t : trainable c a W -> all_columns c -> ta_dd a = None -> ta_budget a = None -> length x = length (ta_data a) -> idle M c a W x -> built P M c a e t ->
  exists t', built P M c (add_column W x a) e' t' /\ col_tree (fun k => k) t t' /\ forall r v, length r = W -> answer (tree_predict c t' (r ++ [v])) = answer (tree_predict c t r).
Proof. intros TR AC DD BU LX ID H. eapply idle_column; eauto. Qed.

(** ** Fewer columns *)
Lemma place_in keep k : In k keep -> place keep k < length keep /\ nth_error keep (place keep k) = Some k.
Proof.
  induction keep as [|j l IH]; [intros []|]. intros H. cbn [place]. destruct (Nat.eqb_spec k j) as [->|N]; [cbn; split; [lia|reflexivity]|].
  destruct H as [H|H]; [congruence|]. destruct (IH H) as [A B]. cbn. split; [lia|auto].
Qed.
Lemma sorted_nth_lt l : StronglySorted lt l -> forall i j x y, nth_error l i = Some x -> nth_error l j = Some y -> (i < j <-> x < y).
Proof.
  intros S. assert (F : forall i j x y, nth_error l i = Some x -> nth_error l j = Some y -> i < j -> x < y).
  { induction S as [|z l S IH A]; intros i j x y Hi Hj LT; [destruct i; discriminate|]. rewrite Forall_forall in A. destruct i, j; cbn in *; try lia.
    - injection Hi as <-. apply A. eapply nth_error_In; eauto.
    - eapply IH; eauto. lia. }
  intros i j x y Hi Hj. split; [now apply F|]. intros LT. destruct (lt_eq_lt_dec i j) as [[H|H]|H]; auto.
  - subst j. assert (x = y) by congruence. lia.
  - pose proof (F j i y x Hj Hi H). lia.
Qed.
Section Drop.
Context (M : math) (c : tcfg) (a : targs) (W : nat) (keep : list nat).
Context (TR : trainable c a W) (AC : all_columns c) (all_feats : train_feats a = seq 0 W) (SK : StronglySorted lt keep) (NK : keep <> []) (KW : forall k, In k keep -> k < W).
Context (TA : tc_bin c = IDENTITY \/ told_apart keep a).
Notation a' := (select_columns keep a).
Notation D := (ta_data a).
Notation D' := (ta_data a').
Notation L := (ta_labels a).
Lemma sel_row i : i < length D -> nth i D' [] = select_row keep (nth i D []).
Proof. intros H. cbn [select_columns ta_data]. erewrite nth_error_nth; [reflexivity|]. rewrite nth_error_map. now rewrite (nth_error_nth' _ [] H). Qed.
Lemma sel_cell i j k : In i (train_rows a) -> nth_error keep j = Some k -> cell D' i j = cell D i k.
Proof.
  intros H E. apply (row_in c a W TR) in H. unfold cell. rewrite sel_row by auto. unfold select_row. erewrite nth_error_nth; [reflexivity|]. now rewrite nth_error_map, E.
Qed.
Lemma sel_feats : train_feats a' = seq 0 (length keep).
Proof.
  unfold train_feats. cbn [select_columns ta_feats]. destruct (ta_feats a); [reflexivity|]. cbn [option_map]. rewrite sel_row by (pose proof (train_nonempty _ _ _ TR); destruct D; [contradiction|cbn; lia]). unfold select_row. now rewrite map_length.
Qed.
Lemma sel_trainable : trainable c a' (length keep).
Proof.
  destruct AC as (_ & _ & _ & FS & MM). destruct TR as [T1 T2 T3 T4 T5 T6 T7 T8 T9 T10 T11 T12 T13 T14]. constructor; auto.
  - cbn. now rewrite map_length.
  - intros r H. cbn in H. apply in_map_iff in H. destruct H as [r0 [<- _]]. apply map_length.
  - rewrite sel_feats. destruct keep; [contradiction|discriminate].
  - rewrite sel_feats. intros f H. apply in_seq in H. lia.
  - rewrite FS. exact I.
  - rewrite MM. exact I.
Qed.
Lemma seq_at n j : j < n -> nth_error (seq 0 n) j = Some j.
Proof. intros H. rewrite (nth_error_nth' _ 0) by (now rewrite seq_length). now rewrite seq_nth. Qed.
Lemma drop_search I nb e e' out e1 : I <> [] -> incl I (train_rows a) -> varied (labels_at L I) ->
  solvable (scfg_of c nb) (sub D (train_feats a) I) (labels_at L I) (length (train_feats a)) -> solvable (scfg_of c nb) (sub D' (train_feats a') I) (labels_at L I) (length (train_feats a')) ->
  solve_exactly M (scfg_of c nb) (sub D (train_feats a) I) (labels_at L I) 0%Qc e = Ok (out, e1) -> good_out (fun k => In k keep) (train_feats a) out ->
  exists out' e1', solve_exactly M (scfg_of c nb) (sub D' (train_feats a') I) (labels_at L I) 0%Qc e' = Ok (out', e1') /\ out_sim (place keep) (train_feats a) (train_feats a') out out'.
Proof.
  intros NE IN VA S S' H GO. destruct AC as (_ & BT & _ & _ & _). destruct (exact_answer _ _ _ _ S _ _ _ _ _ H) as [E [HC [HR [HB [_ _]]]]]. rewrite all_feats, sel_feats in *. rewrite !seq_length in *. set (sc := scfg_of c nb) in *. set (K := length keep) in *.
  assert (BT2 : s_bin sc = LINEAR \/ s_bin sc = IDENTITY) by exact BT.
  assert (NBE : nbins sc (sub D' (seq 0 K) I) = nbins sc (sub D (seq 0 W) I)) by (unfold nbins, sub; now rewrite !map_length).
  assert (KK : forall j, j < K -> exists k, nth_error keep j = Some k /\ k < W).
  { intros j Hj. destruct (nth_error keep j) as [k|] eqn:Z; [exists k; split; auto; apply KW; eapply nth_error_In; eauto|]. apply nth_error_None in Z. unfold K in Hj. lia. }
  set (E' := fun j => E (nth j keep 0)). assert (EE : forall j k, nth_error keep j = Some k -> E' j = E k) by (intros j k Hj; unfold E'; now rewrite (nth_error_nth _ _ _ Hj)).
  assert (VV : forall j k, nth_error keep j = Some k -> k < W -> feature_values (sub D' (seq 0 K) I) j = feature_values (sub D (seq 0 W) I) k).
  { intros j k Hj Hk. assert (Lj : j < K) by (unfold K; apply nth_error_Some; congruence). rewrite (values_sub D' _ _ _ _ (seq_at K j Lj)), (values_sub D _ _ _ _ (seq_at W k Hk)). apply map_ext_in. intros i Hi. apply sel_cell; auto. }
  assert (HC' : forall j, j < K -> candidates (s_bin sc) (nbins sc (sub D' (seq 0 K) I)) (s_minmax sc) (sub D' (seq 0 K) I) j (E' j)).
  { intros j Hj. destruct (KK j Hj) as [k [K1 K2]]. rewrite (EE j k K1), NBE. change (s_minmax sc) with (@None (list Qc * list Qc)) in *. eapply candidates_values; [|apply HC; exact K2]. now apply VV. }
  assert (RR : forall j k v, nth_error keep j = Some k -> reduction (impurity M sc) (combine (sub D' (seq 0 K) I) (labels_at L I)) j v = reduction (impurity M sc) (combine (sub D (seq 0 W) I) (labels_at L I)) k v).
  { intros j k v Hj. assert (Lj : j < K) by (unfold K; apply nth_error_Some; congruence). assert (Hk : k < W) by (apply KW; eapply nth_error_In; eauto). apply reduction_keys. rewrite (keys_sub D' _ _ _ _ _ (seq_at K j Lj)), (keys_sub D _ _ _ _ _ (seq_at W k Hk)). apply map_ext_in. intros i Hi. f_equal. apply sel_cell; auto. }
  assert (NB : busy_features K E' <> []).
  { destruct TA as [TI|TA2].
    - destruct keep as [|k0 l] eqn:EK; [contradiction|]. apply busy_ne with (f := 0); [unfold K; cbn; lia|]. rewrite (EE 0 k0 eq_refl). assert (Hk : k0 < W) by (apply KW; now left). specialize (HC k0 Hk). unfold sc in HC. cbn [scfg_of s_bin s_minmax] in HC. rewrite TI in HC. destruct HC as [_ HC].
      rewrite (values_sub D _ _ _ _ (seq_at W k0 Hk)) in HC. destruct I as [|i I']; [contradiction|]. intros Z. assert (Q : In (cell D i k0) (E k0)) by (apply HC; now left). rewrite Z in Q. destruct Q.
    - destruct VA as (x & y & Ix & Iy & XY). unfold labels_at in Ix, Iy. apply in_map_iff in Ix, Iy. destruct Ix as [i [<- Hi]]. destruct Iy as [j [<- Hj]]. destruct (TA2 i j (IN i Hi) (IN j Hj) XY) as [k [Ik CK]]. destruct (place_in keep k Ik) as [P1 P2]. apply busy_ne with (f := place keep k); [exact P1|]. rewrite (EE _ _ P2). pose proof (KW k Ik) as Hk. specialize (HC k Hk).
      unfold sc in HC. cbn [scfg_of s_bin s_minmax] in HC. destruct BT as [B|B]; rewrite B in HC; cbn [candidates] in HC.
      + destruct HC as (lo & hi & RG & [[Z _]|[_ ->]]).
        * exfalso. apply CK. unfold range_of in RG. rewrite (values_sub D _ _ _ _ (seq_at W k Hk)) in RG. destruct RG as [[_ R1] [_ R2]]. subst hi. assert (Q : forall m, In m I -> cell D m k = lo) by (intros m Hm; apply Qcle_antisym; [apply R2|apply R1]; apply in_map_iff; exists m; split; auto). rewrite !Q by auto. reflexivity.
        * pose proof (sv_bins _ _ _ _ S) as SB. unfold sc in SB. cbn [scfg_of s_bin s_nb] in SB. rewrite B in SB. unfold nbins, sc. cbn [scfg_of s_bin s_nb]. rewrite B. destruct nb; [lia|]. discriminate.
      + destruct HC as [_ HC]. rewrite (values_sub D _ _ _ _ (seq_at W k Hk)) in HC. intros Z. assert (Q : In (cell D i k) (E k)) by (apply HC; apply in_map_iff; eauto). rewrite Z in Q. destruct Q. }
  set (out0 := match out with Found f v r q => Found (place keep f) v r q | NoSplit q => NoSplit q end).
  assert (RA : right_answer (reduction (impurity M sc) (combine (sub D' (seq 0 K) I) (labels_at L I))) 0%Qc K E' out0).
  { unfold out0. destruct out as [f v r q|q]; cbn [right_answer] in *.
    - destruct HR as [Hf [b [N [-> [MI H5]]]]]. cbn [good_out] in GO. specialize (GO f (seq_at W f Hf)). destruct (place_in keep f GO) as [P1 P2]. split; auto. exists b. rewrite (EE _ _ P2), (RR _ _ v P2). split; auto. split; auto. split; auto.
      intros f' b' v' Hf' N'. destruct (KK f' Hf') as [k' [K1 K2]]. rewrite (EE _ _ K1) in N'. rewrite (RR _ _ v' K1). destruct (H5 k' b' v' K2 N') as [H6 H7]. split; auto. intros Q. destruct (H7 Q) as [LT|[EQ LB]].
      + left. now apply (sorted_nth_lt keep SK _ _ _ _ P2 K1).
      + subst k'. right. split; auto. destruct (lt_eq_lt_dec (place keep f) f') as [[Z|Z]|Z]; auto; [apply (sorted_nth_lt keep SK _ _ _ _ P2 K1) in Z|apply (sorted_nth_lt keep SK _ _ _ _ K1 P2) in Z]; lia.
    - intros f' v' Hf' I'. destruct (KK f' Hf') as [k' [K1 K2]]. rewrite (EE _ _ K1) in I'. rewrite (RR _ _ v' K1). now apply HR. }
  destruct (exact_is M sc (sub D' (seq 0 K) I) (labels_at L I) K e' E' out0 S' BT2 HC' NB RA) as (q & e2 & HH).
  exists (set_q out0 q), e2. split; auto. unfold out0. destruct out as [f v r q0|q0]; cbn; auto. split; auto. split; auto. cbn [right_answer] in HR. destruct HR as [Hf _]. exists f. rewrite (seq_at W f Hf). split; auto. apply seq_at. apply place_in. cbn [good_out] in GO. apply (GO f (seq_at W f Hf)).
Qed.
Lemma dropped_columns P e e' t : ta_dd a = None -> ta_budget a = None -> built P M c a e t -> uses_only keep t ->
  exists t', built P M c a' e' t' /\ col_tree (place keep) t t' /\ forall r, length r = W -> answer (tree_predict c t' (select_row keep r)) = answer (tree_predict c t r).
Proof.
  intros DD BU H UO. destruct (columns_tree M c a a' W (length keep) (place keep) (fun k => In k keep) TR sel_trainable AC DD DD BU BU eq_refl eq_refl) with (P := P) (e := e) (e' := e') (t := t) as (t' & H' & CT & PR); auto.
  - intros k i _ Hk Hi. apply sel_cell; auto. now apply place_in.
  - intros I nb e0 e0' out e1 NE IN VA S S' HH GO. eapply drop_search; eauto.
  - exists t'. split; auto. split; auto. intros r Hr. apply PR. intros k _ Hk. destruct (place_in keep k Hk) as [P1 P2]. unfold select_row. rewrite nth_error_map, P2. cbn. symmetry. apply nth_error_nth'. rewrite Hr. now apply KW.
Qed.
End Drop.

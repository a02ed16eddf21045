(** Training error of trees grown with the exhaustive search: accounting of impurities, and what
    a tree that was not stopped early has learnt. *)
From Coq Require Import List Arith Bool ZArith QArith Qcanon Lia Permutation Sorted.
From Verif Require Import Base Num Rng Histogram Utils Criteria Solvers Tree Spec SolverSpec TreeSpec TrainSpec NumFacts ListFacts HistFacts CritFacts ReductionFacts UtilsFacts TreeFacts CountFacts TreeThms TreeMore TreeValue TrainFacts.
Import ListNotations.
Local Open Scope nat_scope.

Lemma is_left_row s v x y : is_left s v (x, y) = qle (nth s x 0%Qc) v.
Proof. unfold is_left, Spec.value_of. cbn [fst]. destruct (Qclt_le_dec v (nth s x 0%Qc)) as [H|H]; symmetry; [now apply qle_false|now apply qle_spec]. Qed.
Lemma left_picked D L I s v : left_part s v (picked D L I) = picked D L (filter (fun i => qle (cell D i s) v) I).
Proof. unfold left_part, picked. rewrite TreeMore.filter_map_comm. f_equal. apply filter_ext. intros i. apply is_left_row. Qed.
Lemma right_picked D L I s v : right_part s v (picked D L I) = picked D L (filter (fun i => qlt v (cell D i s)) I).
Proof. unfold right_part, picked. rewrite TreeMore.filter_map_comm. f_equal. apply filter_ext. intros i. rewrite is_left_row, qlt_negb_qle. reflexivity. Qed.
Lemma labels_picked D L I : labels_of (picked D L I) = labels_at L I.
Proof. unfold labels_of, picked, labels_at. now rewrite map_map. Qed.
Lemma length_picked D L I : length (picked D L I) = length I.
Proof. unfold picked. apply map_length. Qed.

(** A balanced column: on either side of every threshold the weights have the overall mean. *)
Section Balance.
Context (D : list (list Qc)) (I : list nat) (s : nat) (w : nat -> Qc).
Notation S_ J := (qsum (map w J)).
Notation upto v := (filter (fun i => qle (cell D i s) v) I).
Lemma greatest_below (J : list nat) : J <> [] -> exists j, In j J /\ forall i, In i J -> (cell D i s <= cell D j s)%Qc.
Proof.
  induction J as [|j J IH]; [contradiction|]. intros _. destruct J as [|k J].
  - exists j. split; [now left|]. intros i [<-|[]]. apply qle_refl.
  - destruct IH as [m [IM MX]]; [discriminate|]. destruct (qle_lt_dec (cell D j s) (cell D m s)) as [H|H].
    + exists m. split; [now right|]. intros i [<-|K]; auto.
    + exists j. split; [now left|]. intros i [<-|K]; [apply qle_refl|]. pose proof (MX i K). qlra.
Qed.
Lemma group_balance : (forall i, In i I -> (Nq (length I) * S_ (upto (cell D i s)) = Nq (length (upto (cell D i s))) * S_ I)%Qc) ->
  forall i, In i I -> (Nq (length I) * S_ (rows_with D I s (cell D i s)) = Nq (length (rows_with D I s (cell D i s))) * S_ I)%Qc.
Proof.
  intros H i II. set (x := cell D i s). set (B := filter (fun j => qlt (cell D j s) x) I).
  assert (HBal : (Nq (length I) * S_ B = Nq (length B) * S_ I)%Qc).
  { destruct B as [|b B'] eqn:E; [cbn; rewrite Nq_0; ring|]. destruct (greatest_below (b :: B')) as [j [IJ MX]]; [discriminate|]. rewrite <- E in *.
    unfold B in IJ. apply filter_In in IJ. destruct IJ as [IJ LT]. apply qlt_spec in LT.
    assert (EQ : B = upto (cell D j s)).
    { unfold B. apply filter_ext_in. intros k IK. destruct (qle (cell D k s) (cell D j s)) eqn:Q.
      - apply qle_spec in Q. apply qlt_spec. qlra.
      - apply qle_false in Q. apply qlt_false. destruct (qle_lt_dec x (cell D k s)) as [Z|Z]; auto. exfalso.
        assert (IB : In k B) by (unfold B; apply filter_In; split; auto; now apply qlt_spec). pose proof (MX k IB). qlra. }
    rewrite EQ. apply H; auto. }
  pose proof (H i II) as HU. fold x in HU.
  assert (SP : forall J, S_ (filter (fun j => qle (cell D j s) x) J) = (S_ (filter (fun j => qlt (cell D j s) x) J) + S_ (rows_with D J s x))%Qc /\
                         length (filter (fun j => qle (cell D j s) x) J) = length (filter (fun j => qlt (cell D j s) x) J) + length (rows_with D J s x)).
  { unfold rows_with. induction J as [|j J [IH1 IH2]]; [split; [cbn; ring|reflexivity]|]. cbn [filter].
    destruct (Qc_eq_dec (cell D j s) x) as [Q|Q].
    - assert (E1 : qle (cell D j s) x = true) by (apply qle_spec; rewrite Q; apply qle_refl). assert (E2 : qlt (cell D j s) x = false) by (apply qlt_false; rewrite Q; apply qle_refl).
      rewrite E1, E2. cbn [map qsum length]. split; [rewrite IH1; ring|lia].
    - destruct (qle (cell D j s) x) eqn:E1.
      + assert (E2 : qlt (cell D j s) x = true). { apply qlt_spec. apply qle_spec in E1. apply qnot_le. intros K. apply Q. now apply qle_antisym. }
        rewrite E2. cbn [map qsum length]. split; [rewrite IH1; ring|lia].
      + assert (E2 : qlt (cell D j s) x = false) by (apply qlt_false; apply qle_false in E1; qlra). rewrite E2. auto. }
  destruct (SP I) as [S1 S2]. rewrite S1, S2, Nq_plus in HU. fold B in HU.
  transitivity ((Nq (length I) * (S_ B + S_ (rows_with D I s x)) - Nq (length I) * S_ B)%Qc); [ring|]. rewrite HU, HBal. ring.
Qed.
End Balance.

(** No improvement means balance. *)
Lemma occ_sum k L I : Nq (occurrences k (labels_at L I)) = qsum (map (fun i => if Qc_eq_dec (nth i L 0%Qc) k then 1%Qc else 0%Qc) I).
Proof.
  unfold occurrences, labels_at. induction I as [|i I IH]; [reflexivity|]. cbn [map count_occ qsum]. rewrite <- IH.
  destruct (Qc_eq_dec (nth i L 0%Qc) k); [rewrite Nq_S; ring|ring].
Qed.
Lemma gini_balance D L I s v k : I <> [] -> reduction gini (picked D L I) s v = 0%Qc ->
  let J := filter (fun i => qle (cell D i s) v) I in
  (Nq (length I) * Nq (occurrences k (labels_at L J)) = Nq (length J) * Nq (occurrences k (labels_at L I)))%Qc.
Proof.
  intros NI R J. set (T := picked D L I). assert (NT : T <> []) by (unfold T, picked; destruct I; [contradiction|discriminate]).
  set (K := filter (fun i => qlt v (cell D i s)) I).
  assert (LT : left_part s v T = picked D L J) by apply left_picked. assert (RT : right_part s v T = picked D L K) by apply right_picked.
  assert (O : occurrences k (labels_at L I) = occurrences k (labels_at L J) + occurrences k (labels_at L K)).
  { rewrite <- !(labels_picked D L). rewrite <- LT, <- RT. apply parts_occurrences. }
  assert (N : length I = length J + length K).
  { rewrite <- !(length_picked D L). rewrite <- LT, <- RT. symmetry. apply parts_length. }
  rewrite O, N, !Nq_plus.
  destruct J as [|j J'] eqn:EJ; [cbn; rewrite !Nq_0; ring|]. destruct K as [|j2 K'] eqn:EK; [cbn [length labels_at map occurrences count_occ]; rewrite !Nq_0; ring|]. rewrite <- EJ, <- EK in *.
  assert (PJ : (Nq (length J) <> 0)%Qc) by (apply Nq_neq0; rewrite EJ; cbn; lia). assert (PK : (Nq (length K) <> 0)%Qc) by (apply Nq_neq0; rewrite EK; cbn; lia).
  assert (PI : (Nq (length I) <> 0)%Qc) by (apply Nq_neq0; destruct I; [contradiction|cbn; lia]).
  destruct (reduction_gini_cases T s v NT) as [_ F]. fold T in R. rewrite R in F. rewrite LT, RT, !length_picked, !labels_picked in F. unfold T in F. rewrite length_picked, labels_picked in F.
  change rat with Nq in F. change total with qsum in F.
  assert (F' : qsum (map (fun c => let d := (Nq (length K) * Nq (occurrences c (labels_at L J)) - Nq (length J) * Nq (occurrences c (labels_at L K)))%Qc in (d * d)%Qc) (nodup Qc_eq_dec (labels_at L I))) = 0%Qc).
  { specialize (F ltac:(rewrite EJ; discriminate) ltac:(rewrite EK; discriminate)). set (z := qsum _) in *. set (d := (Nq (length I) * Nq (length I) * Nq (length J) * Nq (length K))%Qc) in *.
    assert (ND : (d <> 0)%Qc). { unfold d. intros Z. repeat (apply qmult_eq_0 in Z; destruct Z as [Z|Z]; [|contradiction]). contradiction. }
    assert (ZE : (z = z / d * d)%Qc) by (symmetry; now apply qdiv_mult). rewrite ZE. assert (Z0 : (z / d = 0)%Qc) by (clear - F; qlra). rewrite Z0. ring. }
  assert (G : (Nq (length K) * Nq (occurrences k (labels_at L J)) - Nq (length J) * Nq (occurrences k (labels_at L K)) = 0)%Qc).
  { destruct (in_dec Qc_eq_dec k (labels_at L I)) as [IK|NK].
    - assert (SQ : forall y, In y (map (fun c => let d := (Nq (length K) * Nq (occurrences c (labels_at L J)) - Nq (length J) * Nq (occurrences c (labels_at L K)))%Qc in (d * d)%Qc) (nodup Qc_eq_dec (labels_at L I))) -> (0 <= y)%Qc).
      { intros y IY. apply in_map_iff in IY. destruct IY as [c [<- _]]. apply qsquare_nonneg. }
      pose proof (qsum_zero _ SQ F') as ZZ. specialize (ZZ _ (in_map _ _ _ (proj2 (nodup_In Qc_eq_dec _ _) IK))). cbv zeta in ZZ. apply qmult_eq_0 in ZZ. tauto.
    - assert (ZO : occurrences k (labels_at L I) = 0) by now apply occurrences_zero. assert (ZJ : occurrences k (labels_at L J) = 0) by lia. assert (ZK : occurrences k (labels_at L K) = 0) by lia.
      rewrite ZJ, ZK, Nq_0. ring. }
  set (a := Nq (length J)) in *. set (b := Nq (length K)) in *. set (p := Nq (occurrences k (labels_at L J))) in *. set (q := Nq (occurrences k (labels_at L K))) in *.
  transitivity (a * p + (b * p - a * q) + a * q)%Qc; [ring|]. rewrite G. ring.
Qed.
Lemma variance_balance D L I s v : I <> [] -> reduction variance (picked D L I) s v = 0%Qc ->
  let J := filter (fun i => qle (cell D i s) v) I in
  (Nq (length I) * qsum (labels_at L J) = Nq (length J) * qsum (labels_at L I))%Qc.
Proof.
  intros NI R J. set (T := picked D L I). assert (NT : T <> []) by (unfold T, picked; destruct I; [contradiction|discriminate]).
  set (K := filter (fun i => qlt v (cell D i s)) I).
  assert (LT : left_part s v T = picked D L J) by apply left_picked. assert (RT : right_part s v T = picked D L K) by apply right_picked.
  assert (O : qsum (labels_at L I) = (qsum (labels_at L J) + qsum (labels_at L K))%Qc).
  { pose proof (qsum_labels_parts s v T (fun y => y)) as Q. rewrite !map_id, LT, RT in Q. unfold T in Q. rewrite !labels_picked in Q. exact Q. }
  assert (N : length I = length J + length K).
  { rewrite <- !(length_picked D L). rewrite <- LT, <- RT. symmetry. apply parts_length. }
  rewrite O, N, !Nq_plus.
  destruct J as [|j J'] eqn:EJ; [cbn; rewrite !Nq_0; ring|]. destruct K as [|j2 K'] eqn:EK; [cbn [length labels_at map qsum]; rewrite !Nq_0; ring|]. rewrite <- EJ, <- EK in *.
  assert (PJ : (Nq (length J) <> 0)%Qc) by (apply Nq_neq0; rewrite EJ; cbn; lia). assert (PK : (Nq (length K) <> 0)%Qc) by (apply Nq_neq0; rewrite EK; cbn; lia).
  assert (PI : (Nq (length I) <> 0)%Qc) by (apply Nq_neq0; destruct I; [contradiction|cbn; lia]).
  pose proof (reduction_variance_formula T s v NT) as F. cbv zeta in F. fold T in R. rewrite R, LT, RT, !length_picked, !labels_picked in F. unfold T in F. rewrite length_picked in F.
  change rat with Nq in F. change mean with qmean in F. set (d := (qmean (labels_at L J) - qmean (labels_at L K))%Qc) in *.
  set (m := (Nq (length J) * Nq (length K) / (Nq (length I) * Nq (length I)))%Qc) in *.
  assert (NM : (m <> 0)%Qc).
  { intros Z. assert (E : (m * (Nq (length I) * Nq (length I)) = Nq (length J) * Nq (length K))%Qc). { unfold m. apply qdiv_mult. intros Z'. apply qmult_eq_0 in Z'. tauto. }
    rewrite Z in E. assert (E' : (Nq (length J) * Nq (length K) = 0)%Qc) by (rewrite <- E; ring). apply qmult_eq_0 in E'. tauto. }
  assert (Z : (m * (d * d) = 0)%Qc) by (clear - F; qlra). apply qmult_eq_0 in Z. destruct Z as [Z|Z]; [contradiction|]. apply qmult_eq_0 in Z. assert (DZ : d = 0%Qc) by tauto.
  unfold d, qmean in DZ. unfold labels_at in DZ. rewrite !map_length in DZ. fold (labels_at L J) (labels_at L K) in DZ.
  set (x := qsum (labels_at L J)) in *. set (y := qsum (labels_at L K)) in *. set (u := Nq (length J)) in *. set (w := Nq (length K)) in *.
  assert (E : (x * w = y * u)%Qc). { transitivity ((x / u - y / w) * (u * w) + y * u)%Qc; [field; auto|]. rewrite DZ. ring. }
  transitivity (u * x + x * w)%Qc; [ring|]. rewrite E. ring.
Qed.

Section Exact.
Context (P : prng) (M : math) (c : tcfg) (a : targs) (e : env) (t : tree) (W : nat).
Context (TR : trainable c a W) (HB : built P M c a e t) (SV : tc_solver c = EXACT) (BO : bins_ok c).
Notation D := (ta_data a).
Notation L := (ta_labels a).
Lemma NE : train_rows a <> [].
Proof. exact (tr_rows _ _ _ TR). Qed.
Lemma rows_len : 0 < length (train_rows a).
Proof. pose proof NE. destruct (train_rows a); [contradiction|cbn; lia]. Qed.

Definition share (id : nat) : Qc := (Nq (length (node_rows t id)) / Nq (length (train_rows a)) * tree_impurity M c (labels_at L (node_rows t id)))%Qc.

Lemma rows_pos : (Nq (length (train_rows a)) <> 0)%Qc.
Proof. apply Nq_neq0, rows_len. Qed.

Lemma split_share id nd l r : node_at t id nd -> nd_left nd = Some l -> nd_right nd = Some r -> recorded nd = (share l + share r - share id)%Qc /\ (recorded nd < 0)%Qc.
Proof.
  intros A EL ER. assert (NN : nd_left nd <> None) by congruence.
  destruct (fitted_optimal P M c a e t W TR HB id nd SV BO A NN) as (s & v & E & f & S1 & S2 & S3 & S4 & S5 & S6 & _).
  destruct (split_node P M c a e t HB NE id nd A NN) as (l' & r' & s' & v' & I1 & I2 & I3 & I4 & I5 & I6 & I7 & _ & _ & RL & RR).
  assert (l' = l) by congruence. assert (r' = r) by congruence. assert (s' = s) by congruence. assert (v' = v) by congruence. subst l' r' s' v'.
  destruct (fitted_prop P M c a e t HB NE id nd A) as [PR _].
  assert (NZ : node_rows t id <> []). { rewrite (rows_of _ _ _ A). eapply no_ne, ti_node; [apply (built_tinv P M c a e t HB NE)|exact A]. }
  assert (NI : (Nq (length (node_rows t id)) <> 0)%Qc) by (apply Nq_neq0; destruct (node_rows t id); [contradiction|cbn; lia]).
  unfold recorded. rewrite S5. split.
  - rewrite PR. unfold split_change, reduction. rewrite left_picked, right_picked, !length_picked, !labels_picked, <- RL, <- RR. change rat with Nq. unfold share.
    pose proof rows_pos. field. auto.
  - rewrite PR. assert (PP : (0 < Nq (length (node_rows t id)) / Nq (length (train_rows a)))%Qc).
    { apply qdiv_lt_0; apply Nq_pos; [destruct (node_rows t id); [contradiction|cbn; lia]|apply rows_len]. }
    assert (Z : (0 < (- split_change M c a (node_rows t id) s v) * (Nq (length (node_rows t id)) / Nq (length (train_rows a))))%Qc) by (apply qmult_lt_0; auto; qlra).
    clear - Z. set (q := (Nq _ / Nq _)%Qc) in *. assert (E : (- split_change M c a (node_rows t id) s v * q = - (split_change M c a (node_rows t id) s v * q))%Qc) by ring. rewrite E in Z. qlra.
Qed.

Lemma root_rows : node_rows t 0 = train_rows a.
Proof. destruct (ti_root _ _ _ _ _ _ _ _ (built_tinv P M c a e t HB NE)) as (r & A & E & _). unfold node_rows. unfold node_at in A. now rewrite A. Qed.

Theorem impurity_accounts : leaf_impurity M c a t = (tree_impurity M c (train_labels a) + split_changes t)%Qc.
Proof.
  unfold leaf_impurity, split_changes. change rat with Nq. change total with qsum. change (fun leaf => (Nq (length (node_rows t leaf)) / Nq (length (train_rows a)) * tree_impurity M c (labels_at L (node_rows t leaf)))%Qc) with share.
  rewrite (telescope P M c a e t HB NE share recorded) by (intros id nd l r A EL ER; apply (split_share id nd l r A EL ER)).
  f_equal. unfold share. rewrite root_rows. unfold train_labels. pose proof rows_pos. field. auto.
Qed.

Lemma changes_sign : (split_changes t <= 0)%Qc /\ (0 < t_splits t -> (split_changes t < 0)%Qc).
Proof.
  assert (NG : forall nd, In nd (filter is_split (t_nodes t)) -> (recorded nd < 0)%Qc).
  { intros nd I. apply filter_In in I. destruct I as [I B]. apply In_nth_error in I. destruct I as [id A]. unfold is_split in B. destruct (nd_left nd) as [l|] eqn:EL; [|discriminate].
    destruct (split_node P M c a e t HB NE id nd A ltac:(congruence)) as (l' & r & s & v & I1 & I2 & _). apply (split_share id nd l r A EL I2). }
  unfold split_changes. change total with qsum.
  assert (G : (qsum (map recorded (filter is_split (t_nodes t))) <= 0)%Qc /\ (filter is_split (t_nodes t) <> [] -> (qsum (map recorded (filter is_split (t_nodes t))) < 0)%Qc)).
  { induction (filter is_split (t_nodes t)) as [|nd l IH]; [split; [cbn; apply qle_refl|intros X; contradiction]|].
    destruct IH as [IH1 _]; [intros; apply NG; now right|]. pose proof (NG nd (or_introl eq_refl)). cbn [map qsum]. split; intros; qlra. }
  destruct G as [G1 G2]. split; auto. intros SP. apply G2. intros Z.
  pose proof (built_tinv P M c a e t HB NE) as T. destruct (ti_splits _ _ _ _ _ _ _ _ T) as [LE NO].
  destruct (ti_root _ _ _ _ _ _ _ _ T) as (r & A & _). assert (HR : is_split r = false).
  { destruct (is_split r) eqn:Q; auto. assert (In r (filter is_split (t_nodes t))) by (apply filter_In; split; auto; eapply nth_error_In; exact A). rewrite Z in H. contradiction. }
  destruct (nth_error (t_nodes t) 1) as [n1|] eqn:A1; [|apply nth_error_None in A1; lia].
  destruct (ti_parent _ _ _ _ _ _ _ _ T 1 n1 A1 ltac:(lia)) as (p & pn & _ & LT & B & O). assert (p = 0) by lia. subst p. unfold node_at in *. assert (pn = r) by congruence. subst pn.
  unfold is_split in HR. destruct (nd_left r) eqn:EL; [discriminate|]. destruct (ti_leaf _ _ _ _ _ _ _ _ T _ _ A EL) as [X _]. destruct O; congruence.
Qed.

Theorem training_accounts ps t' : tc_class c = false -> tree_predict_batch c t (train_points a) = Ok (ps, t') ->
  (sq_error (train_labels a) (map number_of ps) = rat (length (train_rows a)) * (variance (train_labels a) + split_changes t))%Qc.
Proof.
  intros IC H. assert (TV : tree_impurity M c = variance) by (pose proof (tr_crit _ _ _ TR) as TC; unfold tree_impurity; rewrite IC in *; destruct TC as [-> | ->]; reflexivity). pose proof impurity_accounts as IA. rewrite TV in IA. rewrite <- IA. rewrite (leaf_errors P M c a e t HB NE _ _ IC H).
  unfold leaf_impurity. change rat with Nq. change total with qsum. rewrite <- qsum_map_scal. f_equal. apply map_ext_in. intros leaf IL. rewrite TV. unfold variance. change rat with Nq. change total with qsum. change mean with qmean.
  destruct (fitted_partition P M c a e t HB NE) as (_ & _ & NN & _). assert (NI : (Nq (length (node_rows t leaf)) <> 0)%Qc) by (apply Nq_neq0; specialize (NN leaf IL); destruct (node_rows t leaf); [contradiction|cbn; lia]).
  assert (LN : length (labels_at L (node_rows t leaf)) = length (node_rows t leaf)) by (unfold labels_at; apply map_length). rewrite LN. pose proof rows_pos. field. auto.
Qed.

(** ** Nothing left to learn *)
Lemma leaf_exhausted : unlimited c a -> tc_bin c = IDENTITY -> (tc_class c = true -> tc_crit c <> ENTROPY) ->
  forall leaf nd, In leaf (t_leaves t) -> node_at t leaf nd ->
  length (node_rows t leaf) <= tc_min_split c \/ ~ varied (labels_at L (node_rows t leaf)) \/ forall s, In s (nd_feats nd) -> uninformative c a (node_rows t leaf) s.
Proof.
  intros [U1 U2 U3 U4] BI NEN leaf nd IL A. destruct (le_lt_dec (length (node_rows t leaf)) (tc_min_split c)) as [SM|SM]; [now left|right].
  destruct (existsb (fun x => existsb (fun y => negb (qeq x y)) (labels_at L (node_rows t leaf))) (labels_at L (node_rows t leaf))) eqn:VD.
  2:{ left. intros (x & y & IX & IY & NXY). assert (T : existsb (fun x => existsb (fun y => negb (qeq x y)) (labels_at L (node_rows t leaf))) (labels_at L (node_rows t leaf)) = true).
      { apply existsb_exists. exists x. split; auto. apply existsb_exists. exists y. split; auto. apply negb_true_iff, NumFacts.qeq_false. exact NXY. } congruence. }
  right. assert (VV : varied (labels_at L (node_rows t leaf))).
  { apply existsb_exists in VD. destruct VD as [x [IX VD]]. apply existsb_exists in VD. destruct VD as [y [IY VD]]. exists x, y. repeat split; auto. apply negb_true_iff in VD. now apply NumFacts.qeq_false in VD. }
  clear VD. intros s IS. apply In_nth_error in IS. destruct IS as [f FS].
  assert (BD : below_depth c (nd_depth nd)) by (unfold below_depth; rewrite U3; exact Logic.I).
  destruct (fitted_exhausted P M c a e t W TR HB leaf nd SV BO U2 ltac:(rewrite U1; discriminate) IL A BD SM VV) as (E & TH & GA).
  set (I := node_rows t leaf) in *. assert (NI : I <> []) by (intros Z; rewrite Z in SM; cbn in SM; lia).
  assert (PI : (0 < Nq (length I))%Qc) by (apply Nq_pos; destruct I; [contradiction|cbn; lia]).
  destruct (fitted_prop P M c a e t HB NE leaf nd A) as [PR _]. fold I in PR.
  assert (PP : (0 < nd_prop nd)%Qc). { rewrite PR. apply qdiv_lt_0; auto. apply Nq_pos. apply rows_len. }
  assert (GE : forall v, In v (E f) -> (0 <= split_change M c a I s v)%Qc).
  { intros v IV. destruct (qle_lt_dec 0 (split_change M c a I s v)) as [Q|Q]; auto. exfalso.
    assert (PG : (0 < nd_prop nd * (- split_change M c a I s v))%Qc) by (apply qmult_lt_0; auto; clear - Q; qlra).
    assert (EQ : (nd_prop nd * - split_change M c a I s v = - (nd_prop nd * split_change M c a I s v))%Qc) by ring.
    assert (NL : (0 < Nq (length (ta_labels a)))%Qc). { apply Nq_pos. destruct I as [|i0 I'] eqn:EI; [contradiction|].
      assert (IR : In i0 (train_rows a)). { apply (Permutation_in _ (proj1 (fitted_partition P M c a e t HB NE))). apply in_flat_map. exists leaf. split; auto. unfold I in EI. rewrite EI. now left. }
      pose proof (tr_rows_in _ _ _ TR i0 IR). lia. }
    pose proof (qdiv_lt_0 _ _ PI NL) as PQ. set (rt := (Nq (length I) / Nq (length (ta_labels a)))%Qc) in *.
    pose proof (qmult_lt_0 _ _ PG PQ) as PZ. assert (EQ2 : (nd_prop nd * - split_change M c a I s v * rt = - (nd_prop nd * split_change M c a I s v * rt))%Qc) by ring.
    specialize (GA f s v FS IV). cbv zeta in GA. fold rt in GA. rewrite EQ in PG. rewrite EQ2 in PZ. clear - GA PG PZ U4 Q. destruct GA as [G|[G|G]]; qlra. }
  assert (VAL : forall i, In i I -> In (cell D i s) (E f)).
  { intros i II. specialize (TH f s FS). unfold thresholds in TH. rewrite BI in TH. cbn [candidates] in TH. destruct TH as [_ TH]. apply TH. unfold SolverSpec.feature_values. rewrite map_map. apply in_map_iff. exists i. split; auto. }
  assert (NT : picked D L I <> []) by (unfold picked; destruct I; [contradiction|discriminate]).
  assert (TV : tc_class c = false -> tree_impurity M c = variance) by (intros Q0; pose proof (tr_crit _ _ _ TR) as TC; unfold tree_impurity; rewrite Q0 in *; destruct TC as [Q1|Q1]; rewrite Q1; reflexivity).
  assert (ZR : forall i, In i I -> split_change M c a I s (cell D i s) = 0%Qc).
  { intros i II. apply qle_antisym; [|apply GE, VAL, II]. unfold split_change. destruct (tc_class c) eqn:IC; [unfold tree_impurity; rewrite IC|rewrite TV by reflexivity].
    - assert (tc_crit c <> ENTROPY) by auto. destruct (tc_crit c); try contradiction; now apply reduction_gini_nonpos.
    - now apply reduction_variance_nonpos. }
  intros i II. cbv zeta. set (G := rows_with D I s (cell D i s)).
  assert (IG : In i G) by (unfold G, rows_with; apply filter_In; split; auto; destruct (Qc_eq_dec (cell D i s) (cell D i s)); congruence).
  assert (PG : (0 < Nq (length G))%Qc) by (apply Nq_pos; destruct G; [contradiction|cbn; lia]).
  assert (FIN : forall x y, (Nq (length I) * x = Nq (length G) * y)%Qc -> (x / Nq (length G) = y / Nq (length I))%Qc).
  { intros x y H. assert (GN : (Nq (length G) <> 0)%Qc) by now apply qpos_neq. assert (IN : (Nq (length I) <> 0)%Qc) by now apply qpos_neq.
    transitivity ((Nq (length I) * x) / (Nq (length I) * Nq (length G)))%Qc; [field; auto|]. rewrite H. field. auto. }
  destruct (tc_class c) eqn:IC.
  - intros k. unfold fraction, labels_at. rewrite !map_length. change rat with Nq. apply FIN. fold (labels_at L G) (labels_at L I). rewrite !occ_sum.
    apply group_balance; auto. intros j IJ. rewrite <- !occ_sum. apply gini_balance; auto. specialize (ZR j IJ). unfold split_change, tree_impurity in ZR. rewrite IC in ZR.
    assert (tc_crit c <> ENTROPY) by auto. destruct (tc_crit c); try contradiction; exact ZR.
  - unfold mean, labels_at. rewrite !map_length. change rat with Nq. change total with qsum. apply FIN. apply group_balance; auto. intros j IJ.
    specialize (ZR j IJ). unfold split_change in ZR. rewrite TV in ZR by reflexivity. exact (variance_balance D L I s _ NI ZR).
Qed.

Lemma leaf_pure : unlimited c a -> tc_bin c = IDENTITY -> (tc_class c = true -> tc_crit c <> ENTROPY) -> tc_min_split c <= 1 -> NoDup (train_feats a) ->
  (tc_fsub c = FSNone /\ (exists s, In s (train_feats a) /\ determines a s)) \/ (forall s, In s (train_feats a) -> determines a s) ->
  forall leaf i j, In leaf (t_leaves t) -> In i (node_rows t leaf) -> In j (node_rows t leaf) -> nth i L 0%Qc = nth j L 0%Qc.
Proof.
  intros U BI NEN MS ND DT leaf i j IL II IJ. destruct (fitted_partition P M c a e t HB NE) as (PE & _ & NN & LV). pose proof IL as IL'. apply LV in IL'. destruct IL' as [nd [A _]].
  assert (RW : forall k, In k (node_rows t leaf) -> In k (train_rows a)) by (intros k K; apply (Permutation_in _ PE); apply in_flat_map; eauto).
  assert (NV : ~ varied (labels_at L (node_rows t leaf)) -> nth i L 0%Qc = nth j L 0%Qc).
  { intros NV. destruct (Qc_eq_dec (nth i L 0%Qc) (nth j L 0%Qc)) as [Q|Q]; auto. exfalso. apply NV. exists (nth i L 0%Qc), (nth j L 0%Qc). unfold labels_at. repeat split; auto; apply in_map_iff; eauto. }
  destruct (leaf_exhausted U BI NEN leaf nd IL A) as [SM|[V|UN]]; auto.
  - destruct (node_rows t leaf) as [|x [|y l]]; cbn in SM; try lia; [contradiction|]. destruct II as [<-|[]], IJ as [<-|[]]. reflexivity.
  - assert (EX : exists s, In s (nd_feats nd) /\ determines a s).
    { destruct (fitted_features P M c a e t HB NE ND leaf nd A) as (_ & IN & SB). destruct DT as [[FS [s [IS DS]]]|DT].
      - rewrite FS in SB. exists s. rewrite SB. auto.
      - assert (NF : nd_feats nd <> []).
        { intros Z. rewrite Z in SB. pose proof (tr_feats _ _ _ TR) as TF. pose proof (tr_sub _ _ _ TR) as TS. destruct (tc_fsub c).
          - congruence.
          - destruct SB as [SB _]. destruct (train_feats a); [contradiction|cbn in SB; lia].
          - cbn in SB. lia.
          - cbn [length] in SB. destruct SB as [SB _]. destruct TS as [TS _]. change (rat 0) with (Nq 0) in SB. rewrite Nq_0 in SB. change rat with Nq in SB.
            assert (0 < Nq (length (train_feats a)))%Qc by (apply Nq_pos; destruct (train_feats a); [contradiction|cbn; lia]). pose proof (qmult_lt_0 _ _ TS H). qlra.
          - contradiction. }
        destruct (nd_feats nd) as [|s l]; [contradiction|]. exists s. split; [now left|]. apply DT, IN. now left. }
    destruct EX as [s [IS DS]]. specialize (UN s IS).
    assert (GP : forall k y, In k (node_rows t leaf) -> In y (labels_at L (rows_with D (node_rows t leaf) s (cell D k s))) -> y = nth k L 0%Qc).
    { intros k y IK IY. unfold labels_at in IY. apply in_map_iff in IY. destruct IY as [m [<- IM]]. unfold rows_with in IM. apply filter_In in IM. destruct IM as [IM Q].
      destruct (Qc_eq_dec (cell D m s) (cell D k s)) as [E|]; [|discriminate]. apply DS; auto. }
    assert (GI : forall k, In k (node_rows t leaf) -> In k (rows_with D (node_rows t leaf) s (cell D k s))).
    { intros k IK. unfold rows_with. apply filter_In. split; auto. destruct (Qc_eq_dec (cell D k s) (cell D k s)); congruence. }
    assert (GN : forall k, In k (node_rows t leaf) -> labels_at L (rows_with D (node_rows t leaf) s (cell D k s)) <> []).
    { intros k IK Z. specialize (GI k IK). unfold labels_at in Z. destruct (rows_with _ _ _ _); [contradiction|discriminate]. }
    assert (ALL : forall (l : list Qc) y, (forall x, In x l -> x = y) -> occurrences y l = length l).
    { induction l as [|x l IH]; intros y H; [reflexivity|]. unfold occurrences in *. cbn [count_occ length]. destruct (Qc_eq_dec x y) as [_|N]; [|exfalso; apply N, H; now left]. f_equal. apply IH. intros z Z. apply H. now right. }
    unfold uninformative in UN. case_eq (tc_class c); intros IC; rewrite IC in UN.
    + pose proof (UN i II (nth i L 0%Qc)) as F. unfold fraction in F. change rat with Nq in F. rewrite (ALL _ (nth i L 0%Qc) (fun y => GP i y II)) in F.
      set (G := labels_at L (rows_with D (node_rows t leaf) s (cell D i s))) in *. set (Y := labels_at L (node_rows t leaf)) in *.
      assert (NG : (Nq (length G) <> 0)%Qc) by (apply Nq_neq0; specialize (GN i II); fold G in GN; destruct G; [contradiction|cbn; lia]).
      assert (IY : forall k, In k (node_rows t leaf) -> In (nth k L 0%Qc) Y) by (intros k K; unfold Y, labels_at; apply in_map_iff; eauto).
      assert (NY : (0 < Nq (length Y))%Qc) by (apply Nq_pos; specialize (IY i II); destruct Y; [contradiction|cbn; lia]).
      assert (OC : occurrences (nth i L 0%Qc) Y = length Y).
      { apply Nq_inj. assert (NY' : (Nq (length Y) <> 0)%Qc) by now apply qpos_neq. transitivity (Nq (occurrences (nth i L 0%Qc) Y) / Nq (length Y) * Nq (length Y))%Qc; [symmetry; now apply qdiv_mult|]. rewrite <- F. field. auto. }
      assert (ONE : forall (l : list Qc) y x, occurrences y l = length l -> In x l -> y = x).
      { clear. unfold occurrences. induction l as [|z l IH]; intros y x O IX; [contradiction|]. cbn [count_occ length] in O. pose proof (count_occ_bound Qc_eq_dec y l).
        destruct (Qc_eq_dec z y) as [Q|Q]; [|lia]. destruct IX as [<-|IX]; auto. }
      apply (ONE Y); auto.
    + assert (MG : forall k, In k (node_rows t leaf) -> nth k L 0%Qc = mean (labels_at L (node_rows t leaf))).
      { intros k IK. rewrite <- (UN k IK). symmetry. unfold mean. change rat with Nq. change total with qsum. set (G := labels_at L (rows_with D (node_rows t leaf) s (cell D k s))) in *.
        assert (NG : (Nq (length G) <> 0)%Qc) by (apply Nq_neq0; specialize (GN k IK); fold G in GN; destruct G; [contradiction|cbn; lia]).
        assert (SG : qsum G = (Nq (length G) * nth k L 0)%Qc).
        { rewrite <- (qsum_map_const (nth k L 0%Qc) G). rewrite <- (map_id G) at 1. f_equal. apply map_ext_in. intros y IY. now apply GP. }
        rewrite SG. field. auto. }
      rewrite (MG i II), (MG j IJ). reflexivity.
Qed.

Theorem reproduces ps t' : unlimited c a -> tc_bin c = IDENTITY -> (tc_class c = true -> tc_crit c <> ENTROPY /\ good_classes (tc_classes c)) -> tc_min_split c <= 1 -> NoDup (train_feats a) ->
  (tc_fsub c = FSNone /\ (exists s, In s (train_feats a) /\ determines a s)) \/ (forall s, In s (train_feats a) -> determines a s) ->
  tree_predict_batch c t (train_points a) = Ok (ps, t') ->
  (if tc_class c then map label_of ps else map number_of ps) = train_labels a.
Proof.
  intros U BI GC MS ND DT H. assert (NEN : tc_class c = true -> tc_crit c <> ENTROPY) by (intros X; apply GC; auto).
  pose proof (leaf_pure U BI NEN MS ND DT) as PU. destruct (batch_values P M c a e t HB NE _ _ H) as (q & -> & Q).
  destruct (fitted_partition P M c a e t HB NE) as (PE & _ & NN & LV). unfold train_labels, labels_at. rewrite !map_map.
  assert (LF : forall i, In i (train_rows a) -> exists leaf, In leaf (t_leaves t) /\ In i (node_rows t leaf)).
  { intros i I. apply (Permutation_in _ (Permutation_sym PE)) in I. apply in_flat_map in I. exact I. }
  case_eq (tc_class c); intros IC; apply map_ext_in; intros i I; destruct (LF i I) as [leaf [IL II]].
  - destruct (GC IC) as [_ G]. destruct (leaf_label P M c a e t HB NE q IC G Q leaf IL) as [l [L1 L2]]. rewrite (L1 i II). specialize (L2 (nth i L 0%Qc)).
    assert (PO : 0 < occurrences (nth i L 0%Qc) (labels_at L (node_rows t leaf))) by (apply occurrences_pos; unfold labels_at; apply in_map_iff; eauto).
    destruct (in_dec Qc_eq_dec l (labels_at L (node_rows t leaf))) as [J|J]; [|rewrite (occurrences_zero _ _ J) in L2; lia].
    unfold labels_at in J. apply in_map_iff in J. destruct J as [j [<- J]]. eapply PU; eauto.
  - rewrite (leaf_mean P M c a e t HB NE q IC Q leaf i IL II). unfold qmean.
    assert (SG : qsum (labels_at L (node_rows t leaf)) = (Nq (length (labels_at L (node_rows t leaf))) * nth i L 0)%Qc).
    { rewrite <- (qsum_map_const (nth i L 0%Qc) (labels_at L (node_rows t leaf))). rewrite <- (map_id (labels_at L (node_rows t leaf))) at 1. f_equal. apply map_ext_in. intros y IY.
      unfold labels_at in IY. apply in_map_iff in IY. destruct IY as [j [<- J]]. eapply PU; eauto. }
    rewrite SG. assert (NZ : (Nq (length (labels_at L (node_rows t leaf))) <> 0)%Qc) by (apply Nq_neq0; unfold labels_at; rewrite map_length; destruct (node_rows t leaf); [contradiction|cbn; lia]). field. auto.
Qed.
End Exact.

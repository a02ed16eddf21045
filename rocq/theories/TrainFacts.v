(** Training error of fitted trees. *)
From Coq Require Import List Arith Bool ZArith QArith Qcanon Lia Permutation.
From Verif Require Import Base Num Rng Histogram Utils Criteria Solvers Tree Spec SolverSpec TreeSpec TrainSpec NumFacts ListFacts HistFacts CritFacts ReductionFacts UtilsFacts TreeFacts CountFacts TreeThms TreeMore.
Import ListNotations.
Local Open Scope nat_scope.

(** ** Sums *)
Lemma sum_swap {A} (f : A -> Qc) l l' : Permutation l l' -> qsum (map f l) = qsum (map f l').
Proof. intros H. apply qsum_perm. now apply Permutation_map. Qed.
Lemma sum_flat {A B} (f : B -> Qc) (g : A -> list B) l : qsum (map f (flat_map g l)) = qsum (map (fun x => qsum (map f (g x))) l).
Proof. induction l as [|x l IH]; cbn [flat_map map qsum]; auto. now rewrite map_app, qsum_app, IH. Qed.

Lemma nodup_app {A} (l l' : list A) : NoDup l -> NoDup l' -> (forall x, In x l -> ~ In x l') -> NoDup (l ++ l').
Proof.
  intros H H'. induction H as [|x l NI ND IH]; intros DJ; cbn [app]; auto. constructor.
  - intros I. apply in_app_iff in I. destruct I as [I|I]; [auto|]. apply (DJ x); [now left|auto].
  - apply IH. intros y I. apply DJ. now right.
Qed.

(** The mean is the best constant. *)
Lemma sq_shift l k : l <> [] ->
  (qsum (map (fun y => (y - k) * (y - k)) l) = qsum (map (fun y => (y - qmean l) * (y - qmean l)) l) + Nq (length l) * ((qmean l - k) * (qmean l - k)))%Qc.
Proof.
  intros NE. assert (P : (Nq (length l) <> 0)%Qc) by (apply Nq_neq0; destruct l; [contradiction|cbn; lia]).
  assert (G : forall c, (qsum (map (fun y => (y - c) * (y - c)) l) = qsum (map (fun y => y * y) l) - (1 + 1) * c * qsum l + Nq (length l) * (c * c))%Qc).
  { intros c. clear NE P. induction l as [|y l IH]; [cbn [map qsum length]; rewrite Nq_0; ring|]. cbn [map qsum length]. rewrite IH, Nq_S. ring. }
  rewrite !G. unfold qmean. field. auto.
Qed.
Lemma mean_best l k : (qsum (map (fun y => (y - qmean l) * (y - qmean l)) l) <= qsum (map (fun y => (y - k) * (y - k)) l))%Qc.
Proof.
  destruct l as [|y l]; [cbn; apply qle_refl|]. rewrite (sq_shift (y :: l) k) by discriminate.
  pose proof (qmult_le_0 _ _ (Nq_nonneg (length (y :: l))) (qsquare_nonneg (qmean (y :: l) - k))). qlra.
Qed.

Lemma sq_error_map ys (f : nat -> Qc) (g : nat -> Qc) I : ys = map f I -> sq_error ys (map g I) = qsum (map (fun i => (f i - g i) * (f i - g i))%Qc I).
Proof. intros ->. unfold sq_error. rewrite TreeMore.combine_maps, map_map. reflexivity. Qed.
Definition hit (f g : nat -> Qc) (i : nat) : bool := if Qc_eq_dec (f i) (g i) then true else false.
Lemma hits_map ys (f g : nat -> Qc) I : ys = map f I -> hits ys (map g I) = length (filter (hit f g) I).
Proof.
  intros ->. unfold hits. rewrite TreeMore.combine_maps, TreeMore.filter_map_comm, map_length. reflexivity.
Qed.
Lemma filter_perm {A} (p : A -> bool) l l' : Permutation l l' -> length (filter p l) = length (filter p l').
Proof. induction 1; cbn [filter]; auto; [destruct (p x); cbn; auto|destruct (p x), (p y); cbn; auto|congruence]. Qed.
Lemma filter_flat {A B} (p : B -> bool) (g : A -> list B) l : length (filter p (flat_map g l)) = list_sum (map (fun x => length (filter p (g x))) l).
Proof. induction l as [|x l IH]; cbn [flat_map map]; auto. rewrite filter_app, app_length, IH, list_sum_cons. reflexivity. Qed.
Lemma hit_const f g I k : (forall i, In i I -> g i = k) -> length (filter (hit f g) I) = occurrences k (map f I).
Proof.
  intros H. unfold occurrences. induction I as [|i I IH]; [reflexivity|]. cbn [filter map count_occ]. unfold hit at 1. rewrite (H i) by now left.
  destruct (Qc_eq_dec (f i) k); cbn [length]; rewrite IH; auto; intros; apply H; now right.
Qed.

Section Fitted.
Context (P : prng) (M : math) (c : tcfg) (a : targs) (e : env) (t : tree).
Context (HB : built P M c a e t) (NE : train_rows a <> []).
Notation D := (ta_data a).
Notation L := (ta_labels a).
Notation lab := (fun i => nth i L 0%Qc).

Lemma over_leaves (f : nat -> Qc) : qsum (map f (train_rows a)) = qsum (map (fun leaf => qsum (map f (node_rows t leaf))) (t_leaves t)).
Proof. rewrite <- sum_flat. apply sum_swap. apply Permutation_sym, (proj1 (fitted_partition P M c a e t HB NE)). Qed.
Lemma over_leaves_nat (p : nat -> bool) : length (filter p (train_rows a)) = list_sum (map (fun leaf => length (filter p (node_rows t leaf))) (t_leaves t)).
Proof. rewrite <- filter_flat. apply filter_perm. apply Permutation_sym, (proj1 (fitted_partition P M c a e t HB NE)). Qed.

(** What is predicted for a training row. *)
Lemma batch_values ps t' : tree_predict_batch c t (train_points a) = Ok (ps, t') ->
  exists q, ps = map q (train_rows a) /\ forall i, In i (train_rows a) -> fresh_answer c t (nth i D []) = Ok (q i).
Proof.
  intros H. destruct (batch_cached c t _ _ _ _ (cached_self P M c a e t HB NE) H) as [_ C].
  set (q := fun i => match fresh_answer c t (nth i D []) with Ok p => p | Err _ => PReg 0%Qc end). exists q.
  unfold train_points in C. clear H HB NE. revert ps C. induction (train_rows a) as [|i I IH]; intros ps C; cbn [map mapM] in *.
  - injection C as <-. split; auto. intros i [].
  - apply rbind_ok in C. destruct C as [p [E1 C]]. apply rbind_ok in C. destruct C as [ps' [E2 C]]. injection C as <-. destruct (IH _ E2) as [-> K].
    assert (Q : fresh_answer c t (nth i D []) = Ok (q i)) by (unfold q; now rewrite E1). split.
    + f_equal. congruence.
    + intros j [<-|J]; auto.
Qed.

Lemma leaf_mean q : tc_class c = false -> (forall i, In i (train_rows a) -> fresh_answer c t (nth i D []) = Ok (q i)) ->
  forall leaf i, In leaf (t_leaves t) -> In i (node_rows t leaf) -> number_of (q i) = qmean (labels_at L (node_rows t leaf)).
Proof.
  intros IC Q leaf i IL II. destruct (fitted_partition P M c a e t HB NE) as (PE & _ & _ & LV).
  pose proof (fitted_rows_routed P M c a e t HB NE leaf i IL II) as LD. pose proof IL as IL'. apply LV in IL'. destruct IL' as [nd [A [LF _]]].
  destruct (leaf_answer_reg P M c a e t HB NE _ leaf nd IC LD A LF) as [FA _]. rewrite Q in FA; [injection FA as ->; reflexivity|].
  apply (Permutation_in _ PE). apply in_flat_map. exists leaf. auto.
Qed.

Lemma leaf_errors ps t' : tc_class c = false -> tree_predict_batch c t (train_points a) = Ok (ps, t') ->
  sq_error (train_labels a) (map number_of ps) =
    qsum (map (fun leaf => qsum (map (fun y => (y - qmean (labels_at L (node_rows t leaf))) * (y - qmean (labels_at L (node_rows t leaf))))%Qc (labels_at L (node_rows t leaf)))) (t_leaves t)).
Proof.
  intros IC H. destruct (batch_values _ _ H) as (q & -> & Q). rewrite map_map. rewrite (sq_error_map (train_labels a) lab _ _ eq_refl). rewrite over_leaves.
  f_equal. apply map_ext_in. intros leaf IL. unfold labels_at at 3. rewrite map_map. f_equal. apply map_ext_in. intros i II.
  now rewrite (leaf_mean q IC Q leaf i IL II).
Qed.

Theorem training_error ps t' : tc_class c = false -> tree_predict_batch c t (train_points a) = Ok (ps, t') ->
  (forall g, leafwise t g -> (sq_error (train_labels a) (map number_of ps) <= sq_error (train_labels a) (map g (train_rows a)))%Qc) /\
  (sq_error (train_labels a) (map number_of ps) <= rat (length (train_rows a)) * variance (train_labels a))%Qc.
Proof.
  intros IC H.
  assert (B : forall g, leafwise t g -> (sq_error (train_labels a) (map number_of ps) <= sq_error (train_labels a) (map g (train_rows a)))%Qc).
  { intros g G. rewrite (leaf_errors _ _ IC H), (sq_error_map (train_labels a) lab _ _ eq_refl), over_leaves. apply qsum_map_le. intros leaf IL.
    destruct (node_rows t leaf) as [|i0 I] eqn:E; [apply qle_refl|].
    assert (EQ : qsum (map (fun i => (lab i - g i) * (lab i - g i))%Qc (i0 :: I)) = qsum (map (fun y => (y - g i0) * (y - g i0))%Qc (labels_at L (i0 :: I)))).
    { unfold labels_at. rewrite map_map. f_equal. apply map_ext_in. intros i II. rewrite (G leaf i i0 IL); [reflexivity|rewrite E; exact II|rewrite E; now left]. }
    rewrite EQ. apply mean_best. }
  split; auto. eapply qle_trans; [apply (B (fun _ => qmean (train_labels a))); intros l i j _ _ _; reflexivity|].
  rewrite (sq_error_map (train_labels a) lab _ _ eq_refl). unfold variance. change rat with Nq. change mean with qmean. change total with qsum.
  assert (LE : length (train_labels a) = length (train_rows a)) by (unfold train_labels, labels_at; apply map_length). rewrite LE.
  assert (NZ : (Nq (length (train_rows a)) <> 0)%Qc) by (apply Nq_neq0; destruct (train_rows a); [contradiction|cbn; lia]).
  assert (EQ : qsum (map (fun i => (lab i - qmean (train_labels a)) * (lab i - qmean (train_labels a)))%Qc (train_rows a)) =
               qsum (map (fun y => (y - qmean (train_labels a)) * (y - qmean (train_labels a)))%Qc (train_labels a))).
  { set (m := qmean (train_labels a)). clearbody m. unfold train_labels, labels_at. now rewrite map_map. }
  rewrite EQ. rewrite Qcmult_comm, qdiv_mult by auto. apply qle_refl.
Qed.

(** ** Classification *)
Lemma known_label leaf i : tc_class c = true -> good_classes (tc_classes c) -> In leaf (t_leaves t) -> In i (node_rows t leaf) -> In (lab i) (map fst (tc_classes c)).
Proof.
  intros IC G IL II. destruct (fitted_partition P M c a e t HB NE) as (_ & _ & _ & LV). apply LV in IL. destruct IL as [nd [A _]].
  pose proof (no_counts _ _ _ _ _ _ _ (ti_node _ _ _ _ _ _ _ _ (built_tinv P M c a e t HB NE) _ _ A) IC) as CN.
  rewrite (rows_of _ _ _ A) in II. destruct (counts_of_labels_spec _ _ _ G CN) as [_ [C2 _]].
  apply C2. unfold labels_at. apply in_map_iff. eauto.
Qed.
Lemma leaf_label q : tc_class c = true -> good_classes (tc_classes c) -> (forall i, In i (train_rows a) -> fresh_answer c t (nth i D []) = Ok (q i)) ->
  forall leaf, In leaf (t_leaves t) -> exists l, (forall i, In i (node_rows t leaf) -> label_of (q i) = l) /\
    forall k, occurrences k (labels_at L (node_rows t leaf)) <= occurrences l (labels_at L (node_rows t leaf)).
Proof.
  intros IC G Q leaf IL. destruct (fitted_partition P M c a e t HB NE) as (PE & _ & NN & LV). pose proof IL as IL'. apply LV in IL'. destruct IL' as [nd [A _]].
  set (I := node_rows t leaf). assert (NI : I <> []) by (apply NN; auto). destruct I as [|i0 I'] eqn:EI; [contradiction|]. unfold I in EI. clear I.
  assert (LD : forall i, In i (node_rows t leaf) -> lands t (nth i D []) 0 leaf) by (intros; now apply (fitted_rows_routed P M c a e t HB NE)).
  assert (RW : forall i, In i (node_rows t leaf) -> In i (train_rows a)).
  { intros i II. apply (Permutation_in _ PE). apply in_flat_map. eauto. }
  assert (EQ : forall i, In i (node_rows t leaf) -> q i = q i0).
  { intros i II. assert (I0 : In i0 (node_rows t leaf)) by (rewrite EI; now left).
    pose proof (Q i (RW i II)) as Q1. pose proof (Q i0 (RW i0 I0)) as Q0. unfold fresh_answer in Q1, Q0.
    rewrite (lands_walk P M c a e t HB NE _ 0 leaf (LD i II)) in Q1 by lia. rewrite (lands_walk P M c a e t HB NE _ 0 leaf (LD i0 I0)) in Q0 by lia.
    cbn [rbind] in Q1, Q0. rewrite Q1 in Q0. now injection Q0. }
  assert (I0 : In i0 (node_rows t leaf)) by (rewrite EI; now left).
  destruct (leaf_answer_class P M c a e t HB NE (nth i0 D []) leaf nd IC G (LD i0 I0) A) as (l & pr & FA & _ & _ & IN & MX & _).
  rewrite (Q i0 (RW i0 I0)) in FA. injection FA as FA. exists l. split.
  - intros i II. rewrite (EQ i ltac:(rewrite EI; auto)), FA. reflexivity.
  - intros k. rewrite <- EI. destruct (in_dec Qc_eq_dec k (map fst (tc_classes c))) as [IK|NK].
    + specialize (MX k IK). unfold fraction in MX. change rat with Nq in MX.
      assert (PO : (0 < Nq (length (labels_at L (node_rows t leaf))))%Qc) by (apply Nq_pos; unfold labels_at; rewrite map_length, EI; cbn; lia).
      apply Nq_le. apply (proj1 (qdiv_le_iff _ _ _ PO)) in MX. rewrite qdiv_mult in MX by now apply qpos_neq. exact MX.
    + rewrite occurrences_zero; [lia|]. intros J. unfold labels_at in J. apply in_map_iff in J. destruct J as [i [<- J]]. apply NK. eapply known_label; eauto.
Qed.

Theorem training_hits ps t' : tc_class c = true -> good_classes (tc_classes c) -> tree_predict_batch c t (train_points a) = Ok (ps, t') ->
  (forall g, leafwise t g -> hits (train_labels a) (map g (train_rows a)) <= hits (train_labels a) (map label_of ps)) /\
  (forall k, occurrences k (train_labels a) <= hits (train_labels a) (map label_of ps)).
Proof.
  intros IC G H. destruct (batch_values _ _ H) as (q & -> & Q).
  assert (B : forall g, leafwise t g -> hits (train_labels a) (map g (train_rows a)) <= hits (train_labels a) (map label_of (map q (train_rows a)))).
  { intros g LW. rewrite map_map. rewrite !(hits_map (train_labels a) lab _ _ eq_refl), !over_leaves_nat.
    pose proof (leaf_label q IC G Q) as LL. unfold leafwise in LW. revert LW LL. induction (t_leaves t) as [|leaf ls IH]; intros LW LL; [cbn; lia|].
    cbn [map]. rewrite !list_sum_cons. apply Nat.add_le_mono.
    - destruct (LL leaf (or_introl eq_refl)) as [l [L1 L2]]. rewrite (hit_const lab (fun i => label_of (q i)) _ l L1).
      destruct (node_rows t leaf) as [|i0 I] eqn:E; [cbn; lia|].
      rewrite (hit_const lab g _ (g i0)); [apply L2|]. intros i II. apply (LW leaf); [now left|rewrite E; auto|rewrite E; now left].
    - apply IH; [intros l i j IL; apply (LW l); now right|intros l IL; apply LL; now right]. }
  split; auto. intros k. eapply Nat.le_trans; [|apply (B (fun _ => k)); intros l i j _ _ _; reflexivity].
  rewrite (hits_map (train_labels a) lab _ _ eq_refl). rewrite (hit_const lab (fun _ => k) _ k) by auto. apply Nat.le_refl.
Qed.

(** ** Telescoping *)
Lemma telescope (phi : nat -> Qc) (d : node -> Qc) :
  (forall id nd l r, node_at t id nd -> nd_left nd = Some l -> nd_right nd = Some r -> d nd = (phi l + phi r - phi id)%Qc) ->
  (qsum (map phi (t_leaves t)) = phi 0%nat + qsum (map d (filter is_split (t_nodes t))))%Qc.
Proof.
  intros HD. pose proof (built_tinv P M c a e t HB NE) as T.
  set (n := length (t_nodes t)).
  set (nd_at := fun id => nth_error (t_nodes t) id).
  set (inner := filter (fun id => match nd_at id with Some nd => is_split nd | None => false end) (seq 0 n)).
  set (kids := fun id => match nd_at id with Some nd => match nd_left nd, nd_right nd with Some l, Some r => [l; r] | _, _ => [] end | None => [] end).
  set (outer := filter (fun id => negb (match nd_at id with Some nd => is_split nd | None => false end)) (seq 0 n)).
  assert (P1 : Permutation (t_leaves t) outer).
  { apply NoDup_Permutation; [apply T|apply NoDup_filter, seq_NoDup|]. intros id. rewrite (ti_leaves _ _ _ _ _ _ _ _ T). unfold outer. rewrite filter_In, in_seq. split.
    - intros [nd [A B]]. unfold node_at in A. split; [split; [lia|]; apply nth_error_Some; congruence|]. unfold nd_at. rewrite A. unfold is_split. now rewrite B.
    - intros [[_ LT] B]. unfold nd_at in B. destruct (nth_error (t_nodes t) id) as [nd|] eqn:A; [|apply nth_error_None in A; unfold n in LT; cbn in LT; lia].
      exists nd. split; auto. unfold is_split in B. destruct (nd_left nd); [discriminate|auto]. }
  assert (KID : forall id k, In k (kids id) <-> exists nd, node_at t id nd /\ (nd_left nd = Some k \/ nd_right nd = Some k) /\ nd_left nd <> None).
  { intros id k. unfold kids, nd_at, node_at. destruct (nth_error (t_nodes t) id) as [nd|] eqn:A; [|split; [intros []|intros [nd [X _]]; discriminate]].
    destruct (nd_left nd) as [l|] eqn:EL.
    - assert (NN : nd_left nd <> None) by congruence. destruct (ti_inner _ _ _ _ _ _ _ _ T _ _ A NN) as (l' & r & nl & nr & s & v & x & I1 & I2 & _). rewrite I2. split.
      + intros [<-|[<-|[]]]; exists nd; (split; [reflexivity|]); split; auto.
      + intros [nd' [X [Y _]]]. injection X as <-. destruct Y as [Y|Y]; [left; congruence|right; left; congruence].
    - split; [intros []|]. intros [nd' [X [_ Y]]]. injection X as <-. congruence. }
  assert (PAR : forall id k, In k (kids id) -> exists nk, node_at t k nk /\ nd_parent nk = Some id /\ id < k).
  { intros id k K. apply KID in K. destruct K as (nd & A & O & NN).
    destruct (ti_inner _ _ _ _ _ _ _ _ T _ _ A NN) as (l & r & nl & nr & s & v & x & I1 & I2 & I3 & I4 & I4' & I5 & I6 & I7 & I8 & _).
    destruct O as [O|O]; [assert (k = l) by congruence; subst k; exists nl|assert (k = r) by congruence; subst k; exists nr]; auto. }
  assert (P2 : Permutation (seq 1 (n - 1)) (flat_map kids inner)).
  { apply NoDup_Permutation; [apply seq_NoDup| |].
    - assert (NDI : NoDup inner) by apply NoDup_filter, seq_NoDup.
      clear P1. induction inner as [|id ids IH]; [constructor|]. cbn [flat_map]. inversion NDI; subst. apply nodup_app; [| |].
      + unfold kids, nd_at. destruct (nth_error (t_nodes t) id) as [nd|] eqn:A; [|constructor]. destruct (nd_left nd) as [l|] eqn:EL; [|constructor].
        assert (NN : nd_left nd <> None) by congruence. destruct (ti_inner _ _ _ _ _ _ _ _ T _ _ A NN) as (l' & r & nl & nr & s & v & x & I1 & I2 & I3 & I4 & I4' & _). rewrite I2.
        constructor; [intros [X|[]]; congruence|constructor; [intros []|constructor]].
      + auto.
      + intros k K1 K2. apply in_flat_map in K2. destruct K2 as [id' [J K2]]. destruct (PAR _ _ K1) as (nk & A1 & A2 & _), (PAR _ _ K2) as (nk' & B1 & B2 & _).
        unfold node_at in *. assert (id = id') by congruence. subst id'. contradiction.
    - intros k. rewrite in_seq, in_flat_map. split.
      + intros K. assert (LK : k < n) by lia. destruct (nth_error (t_nodes t) k) as [nk|] eqn:A; [|apply nth_error_None in A; unfold n in LK; lia].
        destruct (ti_parent _ _ _ _ _ _ _ _ T k nk A ltac:(lia)) as (p & pn & B1 & B2 & B3 & B4). exists p.
        assert (NN : nd_left pn <> None). { destruct (nd_left pn) eqn:E; [discriminate|]. destruct (ti_leaf _ _ _ _ _ _ _ _ T _ _ B3 E) as [X _]. destruct B4; congruence. }
        split.
        * unfold inner. rewrite filter_In, in_seq. unfold node_at in B3. split; [split; [lia|]; assert (p < n) by lia; lia|]. unfold nd_at. rewrite B3. unfold is_split. destruct (nd_left pn); congruence.
        * apply KID. exists pn. auto.
      + intros [id [_ K]]. destruct (PAR _ _ K) as (nk & A1 & _ & LT). unfold node_at in A1. assert (k < n) by (apply nth_error_Some; congruence). lia. }
  assert (NP : 0 < n). { destruct (ti_root _ _ _ _ _ _ _ _ T) as [r [A _]]. apply nth_error_Some. unfold node_at in A. congruence. }
  assert (S1 : qsum (map phi (seq 0 n)) = (qsum (map phi inner) + qsum (map phi outer))%Qc).
  { unfold inner, outer. generalize (seq 0 n). intros l. induction l as [|x l IH]; [cbn; ring|]. cbn [filter map qsum]. rewrite IH.
    destruct (match nd_at x with Some nd => is_split nd | None => false end); cbn [negb map qsum]; ring. }
  assert (S2 : qsum (map phi (seq 0 n)) = (phi 0%nat + qsum (map (fun id => qsum (map phi (kids id))) inner))%Qc).
  { rewrite <- sum_flat, <- (sum_swap phi _ _ P2). destruct n as [|m]; [lia|]. cbn [seq map qsum]. rewrite Nat.sub_succ, Nat.sub_0_r. reflexivity. }
  assert (S3 : qsum (map d (filter is_split (t_nodes t))) = qsum (map (fun id => match nd_at id with Some nd => d nd | None => 0%Qc end) inner)).
  { unfold inner, nd_at, n. clear. induction (t_nodes t) as [|x l IH] using rev_ind; [reflexivity|].
    rewrite app_length, seq_app, !filter_app, !map_app, !qsum_app. cbn [length seq Nat.add filter]. rewrite nth_error_app2, Nat.sub_diag by lia. cbn [nth_error].
    f_equal.
    - rewrite IH. assert (E : forall i, In i (seq 0 (length l)) -> nth_error (l ++ [x]) i = nth_error l i) by (intros i I; apply in_seq in I; apply nth_error_app1; lia).
      revert E. generalize (seq 0 (length l)). intros s E. induction s as [|i s IHs]; [reflexivity|]. cbn [filter]. rewrite (E i) by now left.
      destruct (match nth_error l i with Some nd => is_split nd | None => false end); cbn [map qsum]; rewrite ?(E i) by (now left); rewrite IHs; auto; intros; apply E; now right.
    - destruct (is_split x); cbn [map qsum]; auto. rewrite nth_error_app2, Nat.sub_diag by lia. reflexivity. }
  assert (S4 : qsum (map (fun id => match nd_at id with Some nd => d nd | None => 0%Qc end) inner) =
               (qsum (map (fun id => qsum (map phi (kids id))) inner) - qsum (map phi inner))%Qc).
  { assert (IN : forall id, In id inner -> match nd_at id with Some nd => d nd | None => 0%Qc end = (qsum (map phi (kids id)) - phi id)%Qc).
    { intros id I. unfold inner in I. apply filter_In in I. destruct I as [_ B]. unfold kids, nd_at in *. destruct (nth_error (t_nodes t) id) as [nd|] eqn:A; [|discriminate].
      unfold is_split in B. destruct (nd_left nd) as [l|] eqn:EL; [|discriminate]. assert (NN : nd_left nd <> None) by congruence.
      destruct (ti_inner _ _ _ _ _ _ _ _ T _ _ A NN) as (l' & r & nl & nr & s & v & x & I1 & I2 & _). rewrite I2. rewrite (HD id nd l r A EL I2). cbn [map qsum]. ring. }
    clear -IN. induction inner as [|id l IH]; [cbn; ring|]. cbn [map qsum]. rewrite IN by now left. rewrite IH by (intros; apply IN; now right). ring. }
  rewrite (sum_swap phi _ _ P1), S3, S4. rewrite S1 in S2. clear - S2. qlra.
Qed.
End Fitted.

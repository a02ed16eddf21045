(** What reordering and dropping columns does to the recursive tree. *)
From Coq Require Import List Arith Bool ZArith QArith Qcanon Lia Permutation.
From Verif Require Import Base Num Rng Histogram Utils Criteria Solvers Tree Spec SolverSpec TreeSpec ColSpec GrowSpec OrderSpec ListFacts NumFacts ExactProps TreeFacts TreeThms TreeMore TreeTotal TreeSim ForestOob ColThms GrowFacts GrowThms GrowSeed.
Import ListNotations.
Local Open Scope nat_scope.

(** ** The first of the smallest *)
Lemma first_min {A} (g : A -> Qc) l : l <> [] -> exists l1 p l2, l = l1 ++ p :: l2 /\ (forall q, In q l1 -> (g p < g q)%Qc) /\ (forall q, In q l2 -> (g p <= g q)%Qc).
Proof.
  induction l as [|q l IH]; [contradiction|]. intros _. destruct l as [|q' l]; [exists [], q, []; repeat split; cbn; tauto|].
  destruct IH as (l1 & p & l2 & E & H1 & H2); [discriminate|]. destruct (Qclt_le_dec (g p) (g q)) as [LT|LE].
  - exists (q :: l1), p, l2. rewrite E. split; [reflexivity|]. split; auto. intros x [<-|Hx]; auto.
  - exists [], q, (q' :: l). split; [reflexivity|]. split; [intros x []|]. rewrite E. intros x Hx. eapply Qcle_trans; [exact LE|]. apply in_app_or in Hx. destruct Hx as [Hx|[<-|Hx]]; [apply Qclt_le_weak; auto|apply Qcle_refl|auto].
Qed.
(** All pairs of a column and a place among its thresholds, column by column. *)
Definition pairs_of (E : nat -> list Qc) (k n : nat) : list (nat * nat) := flat_map (fun s => map (pair s) (seq 0 (length (E s)))) (seq k n).
Lemma pairs_in E k n s b : In (s, b) (pairs_of E k n) <-> k <= s < k + n /\ b < length (E s).
Proof.
  unfold pairs_of. rewrite in_flat_map. split.
  - intros [s0 [H1 H2]]. apply in_map_iff in H2. destruct H2 as [b0 [H2 H3]]. injection H2 as -> ->. apply in_seq in H1. apply in_seq in H3. lia.
  - intros [H1 H2]. exists s. split; [apply in_seq; lia|]. apply in_map. apply in_seq. lia.
Qed.
Lemma pairs_order E n : forall k l1 f b l2 f' b', pairs_of E k n = l1 ++ (f, b) :: l2 -> In (f', b') l2 -> earlier_or_same f b f' b'.
Proof.
  induction n as [|n IH]; intros k l1 f b l2 f' b' H I2; [destruct l1; discriminate|]. unfold pairs_of in H. cbn [seq flat_map] in H. fold (pairs_of E (S k) n) in H. revert H.
  assert (G : forall m j l1, map (pair k) (seq j m) ++ pairs_of E (S k) n = l1 ++ (f, b) :: l2 -> earlier_or_same f b f' b').
  { induction m as [|m IHm]; intros j q1 H; cbn [seq map app] in H; [eapply IH; eauto|]. destruct q1 as [|x q1]; cbn [app] in H; [|injection H as _ H; eapply IHm; eauto].
    injection H as <- <- H. rewrite <- H in I2. apply in_app_or in I2. destruct I2 as [I2|I2].
    - apply in_map_iff in I2. destruct I2 as [x [E1 E2]]. injection E1 as <- <-. apply in_seq in E2. right. lia.
    - apply pairs_in in I2. left. lia. }
  apply G.
Qed.
Lemma first_best (E : nat -> list Qc) (g : nat -> Qc -> Qc) n s0 v0 : s0 < n -> In v0 (E s0) ->
  exists s b v, s < n /\ nth_error (E s) b = Some v /\ forall s' b' v', s' < n -> nth_error (E s') b' = Some v' -> (g s v <= g s' v')%Qc /\ (g s' v' = g s v -> earlier_or_same s b s' b').
Proof.
  intros Hs Hv. apply In_nth_error in Hv. destruct Hv as [b0 Hb0]. assert (LB : b0 < length (E s0)) by (apply nth_error_Some; congruence).
  destruct (first_min (fun p => g (fst p) (nth (snd p) (E (fst p)) 0%Qc)) (pairs_of E 0 n)) as (l1 & [s b] & l2 & EQ & H1 & H2).
  { intros Z. assert (X : In (s0, b0) (pairs_of E 0 n)) by (apply pairs_in; lia). rewrite Z in X. destruct X. }
  assert (P : In (s, b) (pairs_of E 0 n)) by (rewrite EQ; apply in_or_app; right; now left). apply pairs_in in P. destruct P as [P1 P2].
  exists s, b, (nth b (E s) 0%Qc). split; [lia|]. split; [now apply nth_error_nth'|]. intros s' b' v' Hs' Hb'. cbn [fst snd] in *.
  assert (LB' : b' < length (E s')) by (apply nth_error_Some; congruence). assert (P' : In (s', b') (pairs_of E 0 n)) by (apply pairs_in; lia).
  assert (V : nth b' (E s') 0%Qc = v') by (now apply nth_error_nth). rewrite EQ in P'. apply in_app_or in P'. destruct P' as [P'|[P'|P']].
  - specialize (H1 _ P'). cbn [fst snd] in H1. rewrite V in H1. split; [now apply Qclt_le_weak|]. intros Z. rewrite Z in H1. exfalso. exact (Qclt_not_le _ _ H1 (Qcle_refl _)).
  - injection P' as <- <-. rewrite V. split; [apply Qcle_refl|]. intros _. right. lia.
  - specialize (H2 _ P'). cbn [fst snd] in H2. rewrite V in H2. split; auto. intros _. eapply pairs_order; eauto.
Qed.

Lemma seq_inv n f s : nth_error (seq 0 n) f = Some s <-> f = s /\ s < n.
Proof.
  split.
  - intros H. assert (f < n) by (rewrite <- (seq_length n 0); apply nth_error_Some; congruence). rewrite seq_at in H by auto. injection H as <-. auto.
  - intros [-> H]. now apply seq_at.
Qed.
Lemma place_nth keep : NoDup keep -> forall j k, nth_error keep j = Some k -> place keep k = j.
Proof.
  intros N j k H. destruct (place_in keep k (nth_error_In _ _ H)) as [L E]. eapply NoDup_nth_error; eauto. congruence.
Qed.

Section Order.
Context (M : math) (c : tcfg) (a : targs) (W : nat) (keep : list nat).
Context (TR : trainable c a W) (BT : tc_bin c = LINEAR \/ tc_bin c = IDENTITY) (MM : tc_minmax c = None) (FS : tc_fsub c = FSNone).
Context (AF : train_feats a = seq 0 W) (ND : NoDup keep) (NK : keep <> []) (KW : forall k, In k keep -> k < W).
Notation a' := (select_columns keep a).
Notation D := (ta_data a).
Notation gain := (split_change M c a).
Notation gain' := (split_change M c a').

Lemma ord_row i : i < length D -> nth i (ta_data a') [] = select_row keep (nth i D []).
Proof. intros H. cbn [select_columns ta_data]. erewrite nth_error_nth; [reflexivity|]. rewrite nth_error_map. now rewrite (nth_error_nth' _ [] H). Qed.
Lemma ord_cell i j k : In i (train_rows a) -> nth_error keep j = Some k -> cell (ta_data a') i j = cell D i k.
Proof.
  intros H E. apply (row_in c a W TR) in H. unfold cell. rewrite ord_row by auto. unfold select_row. erewrite nth_error_nth; [reflexivity|]. now rewrite nth_error_map, E.
Qed.
Lemma ord_feats : train_feats a' = seq 0 (length keep).
Proof.
  unfold train_feats. cbn [select_columns ta_feats]. destruct (ta_feats a); [reflexivity|]. cbn [option_map]. rewrite ord_row by (pose proof (train_nonempty _ _ _ TR); destruct D; [contradiction|cbn; lia]). unfold select_row. now rewrite map_length.
Qed.
Lemma ord_trainable : trainable c a' (length keep).
Proof.
  destruct TR as [T1 T2 T3 T4 T5 T6 T7 T8 T9 T10 T11 T12 T13 T14]. constructor; auto.
  - cbn. now rewrite map_length.
  - intros r H. cbn in H. apply in_map_iff in H. destruct H as [r0 [<- _]]. apply map_length.
  - rewrite ord_feats. destruct keep; [contradiction|discriminate].
  - rewrite ord_feats. intros f H. apply in_seq in H. lia.
  - rewrite FS. exact Logic.I.
  - rewrite MM. exact Logic.I.
Qed.
Lemma ord_values I j k : incl I (train_rows a) -> nth_error keep j = Some k -> map (fun i => cell (ta_data a') i j) I = map (fun i => cell D i k) I.
Proof. intros S E. apply map_ext_in. intros i Hi. apply ord_cell; auto. Qed.
Lemma ord_gain I j k v : incl I (train_rows a) -> nth_error keep j = Some k -> gain' I j v = gain I k v.
Proof.
  intros S E. unfold split_change. apply reduction_keys. rewrite !keys_picked. apply map_ext_in. intros i Hi. f_equal. apply ord_cell; auto.
Qed.
Lemma ord_thresholds I j k E : incl I (train_rows a) -> nth_error keep j = Some k -> thresholds c a' I j E <-> thresholds c a I k E.
Proof.
  intros S H. unfold thresholds. rewrite MM. split; apply candidates_values; rewrite !values_rows; [symmetry|]; now apply ord_values.
Qed.
Lemma ord_left I j k v : incl I (train_rows a) -> nth_error keep j = Some k -> goes_left a' j v I = goes_left a k v I.
Proof. intros S E. unfold goes_left. apply filter_ext_in. intros i Hi. rewrite (ord_cell i j k); auto. Qed.
Lemma ord_right I j k v : incl I (train_rows a) -> nth_error keep j = Some k -> goes_right a' j v I = goes_right a k v I.
Proof. intros S E. unfold goes_right. apply filter_ext_in. intros i Hi. rewrite (ord_cell i j k); auto. Qed.
Lemma ord_worth I j k v : incl I (train_rows a) -> nth_error keep j = Some k -> worth M c a' I j v <-> worth M c a I k v.
Proof. intros S E. unfold worth. rewrite (ord_gain I j k) by auto. reflexivity. Qed.
Lemma worth_better I s v s' v' : (gain I s' v' <= gain I s v)%Qc -> worth M c a I s v -> worth M c a I s' v'.
Proof.
  intros LE [H1 H2]. assert (SP : forall n, (0 <= share I n)%Qc).
  { intros n. unfold share. destruct n as [|n]; [unfold Qcdiv; assert (Z : (/ Nq 0 = 0)%Qc) by (apply Qc_is_canon; reflexivity); rewrite Z, Qcmult_0_r; apply Qcle_refl|]. apply qdiv_le_0; [apply Nq_nonneg|apply Nq_pos; lia]. }
  assert (X : (gain I s' v' * share I (length (train_rows a)) <= gain I s v * share I (length (train_rows a)))%Qc) by (apply Qcmult_le_compat_r; auto).
  split; [eapply Qcle_lt_trans; eauto|]. eapply Qcle_lt_trans; [|exact H2]. apply Qcmult_le_compat_r; auto.
Qed.
(** A best cut that comes before the cuts it ties with stays the best cut. *)
Lemma cut_kept I s v : incl I (train_rows a) -> best_cut M c a I s v -> In s keep -> (forall s', ties_with M c a keep I s v s' -> place keep s < place keep s') ->
  best_cut M c a' I (place keep s) v.
Proof.
  intros S (E & f & b & H1 & H2 & H3 & H4 & H5) KS TI. rewrite AF in *. apply seq_inv in H2. destruct H2 as [-> SW]. destruct (place_in keep s KS) as [PL PN].
  exists (fun j => E (nth j keep 0)), (place keep s), b. rewrite ord_feats. rewrite (nth_error_nth keep _ 0 PN). split; [|split; [|split; [|split]]].
  - intros j j0 Hj. apply seq_inv in Hj. destruct Hj as [-> Lj]. apply (ord_thresholds I j0 (nth j0 keep 0)); auto; [now apply nth_error_nth'|]. apply H1. apply seq_inv. split; [reflexivity|]. apply KW. now apply nth_In.
  - apply seq_at; assumption.
  - exact H3.
  - now rewrite (ord_gain I _ s).
  - intros j j0 b' v' Hj Hb'. apply seq_inv in Hj. destruct Hj as [-> Lj]. set (k := nth j0 keep 0) in *. assert (Ek : nth_error keep j0 = Some k) by (now apply nth_error_nth').
    assert (KW' : k < W) by (apply KW; eapply nth_error_In; eauto). rewrite (ord_gain I _ s), (ord_gain I j0 k) by auto.
    destruct (H5 k k b' v' (proj2 (seq_inv _ _ _) (conj eq_refl KW')) Hb') as [LE T]. split; auto. intros Q. destruct (Nat.eq_dec k s) as [->|NE].
    + assert (J : j0 = place keep s) by (symmetry; now apply place_nth). rewrite J. right. split; auto. destruct (T Q) as [X|[_ X]]; lia.
    + left. assert (P2 : place keep k = j0) by (now apply place_nth). rewrite <- P2. apply TI. split; [eapply nth_error_In; eauto|]. split; auto. exists (E k), v'. split; [|split; auto; eapply nth_error_In; eauto]. apply H1. apply seq_at; assumption.
Qed.
(** A cut that improves in the smaller table is matched by the best cut of the larger one. *)
Lemma cut_matched I j v : incl I (train_rows a) -> I <> [] -> best_cut M c a' I j v -> exists s0 v0, best_cut M c a I s0 v0 /\ (gain I s0 v0 <= gain' I j v)%Qc.
Proof.
  intros S NE (E' & f & b & H1 & H2 & H3 & H4 & H5). rewrite ord_feats in *. apply seq_inv in H2. destruct H2 as [-> LJ]. set (k := nth j keep 0). assert (Ek : nth_error keep j = Some k) by (now apply nth_error_nth').
  assert (KK : k < W) by (apply KW; eapply nth_error_In; eauto).
  destruct (choose_list [] (fun s E => thresholds c a I s E) W) as [E HE].
  { intros s Hs. unfold thresholds. rewrite MM. apply candidates_exist; auto. destruct I; [contradiction|discriminate]. }
  assert (EE : E k = E' j). { eapply thresholds_unique; [exact BT|apply HE; auto|]. apply (ord_thresholds I j k); auto. apply H1. apply seq_at; assumption. }
  assert (IV : In v (E k)) by (rewrite EE; eapply nth_error_In; eauto).
  destruct (first_best E (gain I) W k v KK IV) as (s0 & b0 & v0 & L0 & N0 & OPT). apply In_nth_error in IV. destruct IV as [b1 IV]. destruct (OPT k b1 v KK IV) as [LE _].
  rewrite (ord_gain I j k) in * by auto. exists s0, v0. split; auto. exists E, s0, b0. rewrite AF. split; [|split; [|split; [|split]]]; auto.
  - intros x y Hx. apply seq_inv in Hx. destruct Hx as [-> Hx]. auto.
  - apply seq_at; assumption.
  - eapply Qcle_lt_trans; eauto.
  - intros x y b' v' Hx Hb. apply seq_inv in Hx. destruct Hx as [-> Hx]. auto.
Qed.
Lemma rows_left s v I : incl I (train_rows a) -> incl (goes_left a s v I) (train_rows a).
Proof. intros S i Hi. apply filter_In in Hi. apply S, Hi. Qed.
Lemma rows_right s v I : incl I (train_rows a) -> incl (goes_right a s v I) (train_rows a).
Proof. intros S i Hi. apply filter_In in Hi. apply S, Hi. Qed.
Lemma may_ne d I : may_split c a d I -> I <> [].
Proof. intros (_ & H & _) ->. cbn in H. lia. Qed.

Lemma recursive_kept d I sh : recursive M c a d I sh -> incl I (train_rows a) -> order_kept M c a keep sh -> recursive M c a' d I (rename (place keep) sh).
Proof.
  induction 1 as [d I s v l r H1 H2 H3 Hl IHl Hr IHr|d I H]; intros S OK; cbn [rename].
  - inversion OK as [|I0 s0 v0 l0 r0 KS TI OKl OKr]; subst. destruct (place_in keep s KS) as [PL PN].
    apply rec_fork; [exact H1|now apply cut_kept|now apply (ord_worth I _ s)| |].
    + rewrite (ord_left I _ s) by auto. apply IHl; auto. now apply rows_left.
    + rewrite (ord_right I _ s) by auto. apply IHr; auto. now apply rows_right.
  - apply rec_leaf. intros [MS (j & v & BC & WO)]. apply H. split; [exact MS|]. destruct (cut_matched I j v S (may_ne _ _ MS) BC) as (s0 & v0 & BC0 & LE). exists s0, v0. split; auto.
    destruct BC as (E' & f & b & K1 & K2 & _). rewrite ord_feats in K2. apply seq_inv in K2. destruct K2 as [-> LJ]. assert (Ek : nth_error keep j = Some (nth j keep 0)) by (now apply nth_error_nth').
    pose proof (ord_gain I j _ v S Ek) as G. rewrite G in LE. exact (worth_better I _ _ _ _ LE (proj1 (ord_worth I j _ v S Ek) WO)).
Qed.
(** And only such splits stay. *)
Lemma kept_recursive sh : forall d I, recursive M c a d I sh -> incl I (train_rows a) -> (forall s, In s (columns_of sh) -> In s keep) -> recursive M c a' d I (rename (place keep) sh) -> order_kept M c a keep sh.
Proof.
  induction sh as [J|J s v l IHl r IHr]; intros d I R S CO R'; [constructor|].
  inversion R as [d0 I0 s0 v0 l0 r0 H1 H2 H3 Hl Hr|]; subst. cbn [rename] in R'. inversion R' as [d0 I0 s0 v0 l0 r0 K1 K2 K3 Kl Kr|]; subst.
  assert (KS : In s keep) by (apply CO; cbn; now left). destruct (place_in keep s KS) as [PL PN].
  constructor; auto.
  - intros s' (KS' & NE & E0 & v' & T0 & IV & Q). destruct (place_in keep s' KS') as [PL' PN'].
    destruct K2 as (E & f & b & G1 & G2 & G3 & G4 & G5). rewrite ord_feats in *. apply seq_inv in G2. destruct G2 as [-> _].
    assert (EE : E (place keep s') = E0). { eapply thresholds_unique; [exact BT| |exact T0]. apply (ord_thresholds J (place keep s') s'); auto. apply G1. apply seq_at; assumption. }
    rewrite <- EE in IV. apply In_nth_error in IV. destruct IV as [b' IV].
    destruct (G5 (place keep s') (place keep s') b' v') as [_ T]; [apply seq_at; assumption|exact IV|]. rewrite (ord_gain J _ s'), (ord_gain J _ s) in T by auto. specialize (T Q).
    destruct T as [T|[T _]]; auto. exfalso. apply NE. rewrite T in PN. congruence.
  - eapply IHl; [exact Hl|now apply rows_left|intros x Hx; apply CO; cbn; right; apply in_or_app; now left|]. now rewrite (ord_left J _ s) in Kl by auto.
  - eapply IHr; [exact Hr|now apply rows_right|intros x Hx; apply CO; cbn; right; apply in_or_app; now right|]. now rewrite (ord_right J _ s) in Kr by auto.
Qed.
End Order.

Lemma kept_columns M c a keep sh : order_kept M c a keep sh -> forall s, In s (columns_of sh) -> In s keep.
Proof. induction 1 as [I|I s v l r KS TI Hl IHl Hr IHr]; cbn [columns_of]; intros x Hx; [destruct Hx|]. destruct Hx as [<-|Hx]; auto. apply in_app_or in Hx. destruct Hx; auto. Qed.
Lemma renamed_lands keep t t' x id leaf : (forall k, In k keep -> k < length x) -> lands t x id leaf -> forall id' sh, has_shape t id sh -> (forall s, In s (columns_of sh) -> In s keep) -> has_shape t' id' (rename (place keep) sh) ->
  exists leaf', lands t' (select_row keep x) id' leaf' /\ node_rows t' leaf' = node_rows t leaf.
Proof.
  intros KX. assert (SX : forall s xv, In s keep -> nth_error x s = Some xv -> nth_error (select_row keep x) (place keep s) = Some xv).
  { intros s xv KS Ex. destruct (place_in keep s KS) as [_ PN]. unfold select_row. rewrite nth_error_map, PN. cbn. f_equal. now apply nth_error_nth. }
  induction 1 as [id nd A E1 E2|id nd l s v xv leaf A E1 E2 E3 E4 Q H IH|id nd l r s v xv leaf A E1 E1' E2 E3 E4 Q H IH]; intros id' sh S CO S'.
  - inversion S as [i n A0 X1 X2|i n l0 r0 s0 v0 sl sr A0 X1 X2 X3 X4 Hl Hr]; subst; assert (n = nd) by (unfold node_at in *; congruence); subst n; [|congruence].
    cbn [rename] in S'. inversion S' as [i n A1 Y1 Y2 Z|]; subst. exists id'. split; [eapply lands_here; eauto|]. unfold node_rows. unfold node_at in A, A1. rewrite A, A1. assumption.
  - inversion S as [i n A0 X1 X2|i n l0 r0 s0 v0 sl sr A0 X1 X2 X3 X4 Hl Hr]; subst; assert (n = nd) by (unfold node_at in *; congruence); subst n; [congruence|].
    assert (l0 = l) by congruence. assert (s0 = s) by congruence. assert (v0 = v) by congruence. subst. cbn [rename columns_of] in *. inversion S' as [|i n l1 r1 s1 v1 sl1 sr1 A1 Y1 Y2 Y3 Y4 Kl Kr]; subst.
    destruct (IH l1 sl Hl) as (leaf' & L1 & L2); [intros y Hy; apply CO; right; apply in_or_app; now left|exact Kl|]. exists leaf'. split; auto. eapply lands_left; eauto. apply SX; auto. apply CO. now left.
  - inversion S as [i n A0 X1 X2|i n l0 r0 s0 v0 sl sr A0 X1 X2 X3 X4 Hl Hr]; subst; assert (n = nd) by (unfold node_at in *; congruence); subst n; [congruence|].
    assert (r0 = r) by congruence. assert (s0 = s) by congruence. assert (v0 = v) by congruence. subst. cbn [rename columns_of] in *. inversion S' as [|i n l1 r1 s1 v1 sl1 sr1 A1 Y1 Y2 Y3 Y4 Kl Kr]; subst.
    destruct (IH r1 sr Hr) as (leaf' & L1 & L2); [intros y Hy; apply CO; right; apply in_or_app; now right|exact Kr|]. exists leaf'. split; auto. eapply lands_right; eauto. apply SX; auto. apply CO. now left.
Qed.

Lemma exhaustive_selected c a keep : exhaustive c a -> exhaustive c (select_columns keep a).
Proof. intros H. exact H. Qed.
(** ** The fitted trees *)
Theorem column_order P P' M c a W keep e e' t t' sh : exhaustive c a -> tc_minmax c = None -> trainable c a W -> train_feats a = seq 0 W -> NoDup keep -> keep <> [] -> (forall k, In k keep -> k < W) ->
  built P M c a e t -> built P' M c (select_columns keep a) e' t' -> has_shape t 0 sh -> (forall s, In s (columns_of sh) -> In s keep) ->
  (has_shape t' 0 (rename (place keep) sh) <-> order_kept M c a keep sh).
Proof.
  intros EX MM TR AF ND NK KW HB HB' HS CO. destruct (fitted_recursive P M c a e t W TR HB EX) as (sh0 & S1 & S2). assert (sh0 = sh) by (eapply shape_unique; eauto). subst sh0.
  pose proof EX as EX0. destruct EX0 as (SV & BT & BO & FS & ML & BN).
  pose proof (ord_trainable c a W keep TR MM FS ND NK KW) as TR'.
  destruct (fitted_recursive P' M c _ e' t' (length keep) TR' HB' (exhaustive_selected c a keep EX)) as (sh' & S3 & S4). change (train_rows (select_columns keep a)) with (train_rows a) in S4.
  split.
  - intros HR. assert (sh' = rename (place keep) sh) by (eapply shape_unique; eauto). subst sh'. eapply kept_recursive; eauto using incl_refl.
  - intros OK. pose proof (recursive_kept M c a W keep TR BT MM AF ND KW _ _ _ S2 (incl_refl _) OK) as S5. assert (sh' = rename (place keep) sh) by (eapply recursive_unique; [exact BT|exact S5|exact S4]). now subst sh'.
Qed.
Theorem ordered_answers P P' M c a W keep e e' t t' sh x : exhaustive c a -> tc_minmax c = None -> trainable c a W -> train_feats a = seq 0 W -> NoDup keep -> keep <> [] -> (forall k, In k keep -> k < W) ->
  built P M c a e t -> built P' M c (select_columns keep a) e' t' -> has_shape t 0 sh -> order_kept M c a keep sh -> W <= length x ->
  answer (tree_predict c t' (select_row keep x)) = answer (tree_predict c t x).
Proof.
  intros EX MM TR AF ND NK KW HB HB' HS OK LX. pose proof EX as EX0. destruct EX0 as (SV & BT & BO & FS & ML & BN). pose proof (ord_trainable c a W keep TR MM FS ND NK KW) as TR'.
  pose proof (kept_columns _ _ _ _ _ OK) as CO. assert (HS' : has_shape t' 0 (rename (place keep) sh)) by (eapply column_order; eauto).
  destruct (fitted_routes P M c a e t HB (tr_rows _ _ _ TR) x) as [leaf [L1 _]]; [rewrite AF; intros f Hf; apply in_seq in Hf; lia|].
  destruct (renamed_lands keep t t' x 0 leaf) with (id' := 0) (sh := sh) as (leaf' & L2 & RR); auto; [intros k Hk; specialize (KW k Hk); lia|].
  exact (same_rows_answer P P' M M c c a (select_columns keep a) e e' t t' HB HB' (tr_rows _ _ _ TR) (tr_rows _ _ _ TR') eq_refl eq_refl eq_refl x (select_row keep x) leaf leaf' L1 L2 RR).
Qed.
Lemma untied_kept M c a keep sh : untied M c a keep sh -> (forall s, In s (columns_of sh) -> In s keep) -> order_kept M c a keep sh.
Proof.
  induction 1 as [I|I s v l r TI Hl IHl Hr IHr]; intros CO; constructor; cbn [columns_of] in CO.
  - apply CO. now left.
  - intros s' T. destruct (TI s' T).
  - apply IHl. intros x Hx. apply CO. right. apply in_or_app. now left.
  - apply IHr. intros x Hx. apply CO. right. apply in_or_app. now right.
Qed.
Lemma shape_columns P M c a e t W : trainable c a W -> train_feats a = seq 0 W -> exhaustive c a -> built P M c a e t -> forall sh, has_shape t 0 sh -> forall s, In s (columns_of sh) -> s < W.
Proof.
  intros TR AF EX HB sh HS. destruct (fitted_recursive P M c a e t W TR HB EX) as (sh0 & S1 & S2). assert (sh0 = sh) by (eapply shape_unique; eauto). subst sh0. assert (F : forall f s, nth_error (train_feats a) f = Some s -> s < W) by (intros f s; rewrite AF; intros G; apply seq_inv in G; apply G). clear - S2 F.
  induction S2 as [d I s v l r H1 H2 H3 Hl IHl Hr IHr|d I H]; cbn [columns_of]; intros x Hx; [|destruct Hx]. destruct Hx as [<-|Hx]; [|apply in_app_or in Hx; destruct Hx; auto].
  destruct H2 as (E & f & b & _ & G & _). eapply F; eauto.
Qed.
(** Without ties every order of the columns gives the same tree. *)
Theorem any_order P P' M c a W keep e e' t t' sh : exhaustive c a -> tc_minmax c = None -> trainable c a W -> train_feats a = seq 0 W -> Permutation keep (seq 0 W) ->
  built P M c a e t -> built P' M c (select_columns keep a) e' t' -> has_shape t 0 sh -> untied M c a (seq 0 W) sh ->
  has_shape t' 0 (rename (place keep) sh) /\ forall x, W <= length x -> answer (tree_predict c t' (select_row keep x)) = answer (tree_predict c t x).
Proof.
  intros EX MM TR AF PM HB HB' HS UT.
  assert (ND : NoDup keep) by (eapply Permutation_NoDup; [apply Permutation_sym, PM|apply seq_NoDup]).
  assert (IK : forall k, In k keep <-> k < W). { intros k. split; intros H; [apply (Permutation_in _ PM) in H; apply in_seq in H; lia|]. apply (Permutation_in _ (Permutation_sym PM)). apply in_seq. lia. }
  assert (NK : keep <> []). { intros ->. pose proof (tr_feats _ _ _ TR) as F. rewrite AF in F. destruct W; [now apply F|]. destruct (proj2 (IK 0)). lia. }
  assert (CO : forall s, In s (columns_of sh) -> In s keep) by (intros s Hs; apply IK; eapply shape_columns; eauto).
  assert (UT' : untied M c a keep sh). { clear - UT IK. induction UT as [I|I s v l r TI Hl IHl Hr IHr]; constructor; auto. intros s' (K & T). apply (TI s'). split; auto. apply in_seq. apply IK in K. lia. }
  assert (KW : forall k, In k keep -> k < W) by (intros k; apply IK).
  pose proof (untied_kept _ _ _ _ _ UT' CO) as OK. split; [eapply column_order; eauto|]. intros x LX. eapply ordered_answers; eauto.
Qed.

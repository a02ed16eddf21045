(** Facts about arms, arrays, sampling and the selection of the best cell. *)
From Coq Require Import List Arith Bool ZArith QArith Qcanon Lia Permutation Sorted.
From Verif Require Import Base Num Rng Histogram Utils Criteria Solvers Spec NumFacts ListFacts HistFacts HistAdd CritFacts MakeHist.
Import ListNotations.
Local Open Scope nat_scope.

(** ** Arms grouped by feature *)
Definition flatten (g : list (nat * list nat)) : list (nat * nat) :=
  concat (map (fun fb => map (fun b => (fst fb, b)) (snd fb)) g).

(** features never decrease along the list *)
Definition by_feature (acc : list (nat * nat)) : Prop := StronglySorted (fun a b => fst a <= fst b) acc.

Lemma group_add_new f b g : (forall k, In k (map fst g) -> k <> f) -> group_add f b g = g ++ [(f, [b])].
Proof.
  induction g as [|[k bs] g IH]; intros H; cbn; auto.
  assert (k <> f) by (apply H; now left). apply not_eq_sym, Nat.eqb_neq in H0. rewrite H0.
  f_equal. apply IH. intros x I. apply H. now right.
Qed.
Lemma group_add_last f b g bs : (forall k, In k (map fst g) -> k <> f) ->
  group_add f b (g ++ [(f, bs)]) = g ++ [(f, bs ++ [b])].
Proof.
  induction g as [|[k bs'] g IH]; intros H; cbn.
  - now rewrite Nat.eqb_refl.
  - assert (k <> f) by (apply H; now left). apply not_eq_sym, Nat.eqb_neq in H0. rewrite H0.
    f_equal. apply IH. intros x I. apply H. now right.
Qed.
Lemma flatten_app g1 g2 : flatten (g1 ++ g2) = flatten g1 ++ flatten g2.
Proof. unfold flatten. now rewrite map_app, concat_app. Qed.

Lemma f2bin_gen acc g :
  by_feature acc -> StronglySorted lt (map fst g) -> (forall k a, In k (map fst g) -> In a acc -> k <= fst a) ->
  (forall fb, In fb g -> snd fb <> []) ->
  let g' := fold_left (fun g a => group_add (fst a) (snd a) g) acc g in
  flatten g' = flatten g ++ acc /\ StronglySorted lt (map fst g') /\ (forall fb, In fb g' -> snd fb <> []).
Proof.
  revert g. induction acc as [|[f b] acc IH]; intros g S SG LE NE; cbn [fold_left].
  - rewrite app_nil_r. auto.
  - inversion S as [|x l S1 F1]; subst.
    cbn [fst snd].
    assert (LT : forall g0 : list (nat * list nat), StronglySorted lt (map fst g0) -> (forall k, In k (map fst g0) -> k < f) ->
                 StronglySorted lt (map fst g0 ++ [f])).
    { clear. intros g0. induction (map fst g0) as [|k l IH]; intros S H; cbn; [repeat constructor|].
      inversion S; subst. constructor.
      - apply IH; auto. intros; apply H; now right.
      - apply Forall_app. split; auto. constructor; auto. apply H. now left. }
    assert (C : exists g1, group_add f b g = g1 /\ flatten g1 = flatten g ++ [(f, b)] /\
              StronglySorted lt (map fst g1) /\ (forall k, In k (map fst g1) -> k <= f) /\
              (forall fb, In fb g1 -> snd fb <> [])).
    { exists (group_add f b g). split; auto.
      destruct g as [|x g0] using rev_ind; [|clear IHg0].
      - cbn. repeat split; auto; [repeat constructor|intros k [<-|[]]; lia|intros fb [<-|[]]; discriminate].
      - destruct x as [k bs]. rewrite map_app in SG. cbn [map fst] in SG.
        assert (K1 : forall j, In j (map fst g0) -> j < k).
        { clear - SG. induction (map fst g0) as [|j l IH]; intros i []; inversion SG; subst.
          - rewrite Forall_app in H3. destruct H3 as [_ H3]. now inversion H3.
          - auto. }
        assert (SG0 : StronglySorted lt (map fst g0)).
        { clear - SG. induction (map fst g0) as [|j l IH]; [constructor|]. inversion SG; subst.
          constructor; auto. rewrite Forall_app in H2. tauto. }
        assert (KF : k <= f). { apply (LE k (f, b)); [|now left]. rewrite map_app. apply in_app_iff. right. now left. }
        destruct (Nat.eq_dec k f) as [->|NK].
        + rewrite group_add_last by (intros j J; apply K1 in J; lia).
          rewrite !flatten_app. unfold flatten at 2 4. cbn [map concat fst snd]. rewrite !app_nil_r, map_app, app_assoc.
          rewrite map_app. cbn [map fst]. repeat split; auto.
          * intros j J. apply in_app_iff in J. destruct J as [J|[<-|[]]]; [apply K1 in J; lia|lia].
          * intros fb J. apply in_app_iff in J. destruct J as [J|[<-|[]]].
            -- apply NE. apply in_app_iff. now left.
            -- cbn. destruct bs; discriminate.
        + rewrite group_add_new.
          2:{ intros j J. rewrite map_app in J. apply in_app_iff in J. destruct J as [J|[<-|[]]]; [apply K1 in J; lia|cbn; lia]. }
          rewrite flatten_app. unfold flatten at 2. cbn [map concat fst snd app].
          split; auto. rewrite map_app. split; [|split].
          * cbn [map fst]. apply LT.
            -- now rewrite map_app.
            -- intros j J. rewrite map_app in J. apply in_app_iff in J. destruct J as [J|[<-|[]]]; [apply K1 in J; lia|cbn; lia].
          * intros j J. rewrite map_app in J. rewrite !in_app_iff in J. destruct J as [[J|[<-|[]]]|[<-|[]]]; [apply K1 in J; lia|cbn; lia|cbn; lia].
          * intros fb J. rewrite !in_app_iff in J. destruct J as [J|[<-|[]]]; [|discriminate].
            apply NE. now apply in_app_iff. }
    destruct C as [g1 [E [C1 [C2 [C3 C4]]]]]. rewrite E.
    destruct (IH g1) as [D1 [D2 D3]]; auto.
    { intros k a J I. rewrite Forall_forall in F1. apply C3 in J. apply F1 in I. cbn in I. lia. }
    rewrite C1, <- app_assoc in D1. auto.
Qed.

Lemma f2bin_spec acc : by_feature acc ->
  flatten (f2bin acc) = acc /\ NoDup (map fst (f2bin acc)) /\ (forall fb, In fb (f2bin acc) -> snd fb <> []).
Proof.
  intros S. destruct (f2bin_gen acc [] S (SSorted_nil _)) as [A [B C]]; [intros k a []|intros fb []|].
  split; [exact A|]. split; [|exact C].
  unfold f2bin. clear - B. induction B as [|x l S IH F]; constructor; auto.
  rewrite Forall_forall in F. intros I. apply F in I. lia.
Qed.

Lemma f2bin_keys acc f : by_feature acc -> (In f (map fst (f2bin acc)) <-> In f (map fst acc)).
Proof.
  intros S. destruct (f2bin_spec acc S) as [E [_ NE]]. rewrite <- E at 2. unfold flatten. split; intros I.
  - apply in_map_iff in I. destruct I as [[k bs] [<- I]]. specialize (NE _ I). cbn in NE.
    destruct bs as [|b bs]; [contradiction|]. apply in_map_iff. exists (k, b). split; auto.
    apply in_concat. exists (map (fun b => (k, b)) (b :: bs)). split; [|now left].
    apply in_map_iff. exists (k, b :: bs). auto.
  - apply in_map_iff in I. destruct I as [[k b] [<- I]]. apply in_concat in I. destruct I as [l [I J]].
    apply in_map_iff in I. destruct I as [[k' bs] [<- I]]. apply in_map_iff in J.
    destruct J as [b' [Q J]]. injection Q as <- <-. apply in_map_iff. exists (k', bs). auto.
Qed.

Lemma by_feature_filter p acc : by_feature acc -> by_feature (filter p acc).
Proof.
  intros S. induction S as [|x l S IH F]; cbn; [constructor|].
  destruct (p x); auto. constructor; auto. rewrite Forall_forall in *. intros y I.
  apply filter_In in I. now apply F.
Qed.
Lemma by_feature_concat (g : nat -> list (nat * nat)) k n :
  (forall i x, In x (g i) -> fst x = i) -> by_feature (concat (map g (seq k n))).
Proof.
  intros H. revert k. induction n as [|n IH]; intros k; cbn; [constructor|].
  specialize (IH (S k)).
  assert (A : forall x, In x (concat (map g (seq (S k) n))) -> k <= fst x).
  { intros x I. apply in_concat in I. destruct I as [l [I J]]. apply in_map_iff in I.
    destruct I as [i [<- I]]. apply in_seq in I. rewrite (H _ _ J). lia. }
  assert (B : forall x, In x (g k) -> fst x = k) by auto.
  induction (g k) as [|x l IHl]; cbn; auto. constructor.
  - apply IHl. intros; apply B; now right.
  - rewrite Forall_forall. intros y I. rewrite (B x (or_introl eq_refl)).
    apply in_app_iff in I. destruct I as [I|I]; auto. rewrite (B y); auto. now right.
Qed.
Lemma cells_concat F B : cells F B = concat (map (fun f => map (fun b => (f, b)) (seq 0 B)) (seq 0 F)).
Proof. unfold cells. induction (seq 0 F); cbn; congruence. Qed.
Lemma cells_by_feature F B : by_feature (cells F B).
Proof.
  rewrite cells_concat. apply by_feature_concat. intros i x I. apply in_map_iff in I.
  destruct I as [b [<- _]]. reflexivity.
Qed.
Lemma mapi_from_seq {A B} (g : nat -> A -> B) l k :
  mapi_from k g l = map (fun p => g (fst p) (snd p)) (combine (seq k (length l)) l).
Proof. revert k. induction l as [|a l IH]; intros k; cbn; auto. now rewrite IH. Qed.

Lemma cons_of_by_feature_gen hs k :
  by_feature (concat (mapi_from k (fun i h => map (fun b => (i, b)) (seq 0 (h_nb h))) hs)) /\
  forall x, In x (concat (mapi_from k (fun i h => map (fun b => (i, b)) (seq 0 (h_nb h))) hs)) -> k <= fst x.
Proof.
  revert k. induction hs as [|h hs IH]; intros k; cbn [mapi_from concat].
  - split; [constructor|intros x []].
  - destruct (IH (S k)) as [S1 L1]. split.
    + induction (seq 0 (h_nb h)) as [|b l IHl]; cbn [map app]; auto. constructor; auto.
      rewrite Forall_forall. intros y I. cbn. apply in_app_iff in I. destruct I as [I|I].
      * apply in_map_iff in I. destruct I as [? [<- _]]. cbn. lia.
      * apply L1 in I. lia.
    + intros x I. apply in_app_iff in I. destruct I as [I|I].
      * apply in_map_iff in I. destruct I as [? [<- _]]. cbn. lia.
      * apply L1 in I. lia.
Qed.
Lemma cons_of_by_feature hs : by_feature (cons_of hs).
Proof. apply cons_of_by_feature_gen. Qed.
Lemma nodup_concat_pairs hs k (sq : hist -> list nat) : (forall h, NoDup (sq h)) ->
  NoDup (concat (mapi_from k (fun i h => map (fun b => (i, b)) (sq h)) hs)) /\
  forall x, In x (concat (mapi_from k (fun i h => map (fun b => (i, b)) (sq h)) hs)) -> k <= fst x.
Proof.
  intros ND. revert k. induction hs as [|h hs IH]; intros k; cbn [mapi_from concat].
  - split; [constructor|intros x []].
  - destruct (IH (S k)) as [S1 L1]. split.
    + specialize (ND h). induction ND as [|b l N ND IHl]; cbn [map app]; auto. constructor; auto.
      intros I. apply in_app_iff in I. destruct I as [I|I].
      * apply in_map_iff in I. destruct I as [? [Q I]]. injection Q as ->. auto.
      * apply L1 in I. cbn in I. lia.
    + intros x I. apply in_app_iff in I. destruct I as [I|I].
      * apply in_map_iff in I. destruct I as [? [<- _]]. cbn. lia.
      * apply L1 in I. lia.
Qed.
Lemma cons_of_nodup hs : NoDup (cons_of hs).
Proof. apply (nodup_concat_pairs hs 0 (fun h => seq 0 (h_nb h))). intros. apply seq_NoDup. Qed.

(** ** Arrays *)
Lemma upd_same {A} (m : nat -> nat -> A) c v : upd m c v (fst c) (snd c) = v.
Proof. unfold upd. now rewrite !Nat.eqb_refl. Qed.
Lemma upd_other {A} (m : nat -> nat -> A) c v f b : (f, b) <> c -> upd m c v f b = m f b.
Proof.
  intros N. unfold upd. destruct (f =? fst c) eqn:E1; auto. destruct (b =? snd c) eqn:E2; auto.
  apply Nat.eqb_eq in E1. apply Nat.eqb_eq in E2. subst. destruct N. now destruct c.
Qed.
Lemma upds_other {A} acc vals (m : nat -> nat -> A) f b : ~ In (f, b) acc -> upds m acc vals f b = m f b.
Proof.
  unfold upds. revert vals m. induction acc as [|c acc IH]; intros [|v vals] m N; cbn; auto.
  rewrite IH by (intro; apply N; now right). apply upd_other. intros E. apply N. now left.
Qed.
Lemma upds_nth {A} acc vals (m : nat -> nat -> A) i c v :
  NoDup acc -> nth_error acc i = Some c -> nth_error vals i = Some v -> upds m acc vals (fst c) (snd c) = v.
Proof.
  unfold upds. revert vals m i. induction acc as [|d acc IH]; intros vals m i ND H1 H2; [destruct i; discriminate|].
  inversion ND; subst. destruct i as [|i], vals as [|w vals]; cbn in *; try discriminate.
  - injection H1 as ->. injection H2 as ->. change (upds (upd m c v) acc vals (fst c) (snd c) = v).
    rewrite upds_other by (now destruct c). apply upd_same.
  - eapply IH; eauto.
Qed.
Lemma upds_in {A} acc vals (m : nat -> nat -> A) f b : NoDup acc -> length acc = length vals -> In (f, b) acc ->
  exists i, nth_error acc i = Some (f, b) /\ nth_error vals i = Some (upds m acc vals f b).
Proof.
  intros ND L I. apply In_nth_error in I. destruct I as [i I]. exists i. split; auto.
  destruct (nth_error vals i) as [v|] eqn:E.
  - f_equal. symmetry. apply (upds_nth acc vals m i (f, b) v ND I E).
  - apply nth_error_None in E. assert (i < length acc) by (apply nth_error_Some; congruence). lia.
Qed.
Lemma upd_const_spec {A} acc (m : nat -> nat -> A) v f b :
  upd_const m acc v f b = if existsb (pair_eqb (f, b)) acc then v else m f b.
Proof.
  unfold upd_const. revert m. induction acc as [|c acc IH]; intros m; cbn; auto.
  rewrite IH. unfold upd, pair_eqb at 2. cbn.
  destruct (existsb (pair_eqb (f, b)) acc); [now rewrite orb_true_r|]. rewrite orb_false_r. reflexivity.
Qed.
Lemma existsb_pair f b acc : existsb (pair_eqb (f, b)) acc = true <-> In (f, b) acc.
Proof.
  rewrite existsb_exists. split.
  - intros [[f' b'] [I E]]. unfold pair_eqb in E. cbn in E. apply andb_true_iff in E.
    rewrite !Nat.eqb_eq in E. destruct E; subst. auto.
  - intros I. exists (f, b). split; auto. unfold pair_eqb. cbn. now rewrite !Nat.eqb_refl.
Qed.
Lemma upd_const_in {A} acc (m : nat -> nat -> A) v f b : In (f, b) acc -> upd_const m acc v f b = v.
Proof. intros I. rewrite upd_const_spec. apply existsb_pair in I. now rewrite I. Qed.
Lemma upd_const_out {A} acc (m : nat -> nat -> A) v f b : ~ In (f, b) acc -> upd_const m acc v f b = m f b.
Proof.
  intros I. rewrite upd_const_spec. destruct (existsb (pair_eqb (f, b)) acc) eqn:E; auto.
  apply existsb_pair in E. contradiction.
Qed.
Lemma in_range_spec F B acc : in_range F B acc = true <-> forall f b, In (f, b) acc -> f < F /\ b < B.
Proof.
  unfold in_range. rewrite forallb_forall. split.
  - intros H f b I. apply H in I. cbn in I. rewrite andb_true_iff, !Nat.ltb_lt in I. auto.
  - intros H [f b] I. cbn. rewrite andb_true_iff, !Nat.ltb_lt. auto.
Qed.
Lemma assign_ok F B m acc vals m' : assign F B m acc vals = Ok m' ->
  length acc = length vals /\ (forall f b, In (f, b) acc -> f < F /\ b < B) /\ m' = upds m acc vals.
Proof.
  unfold assign. intros H. inv_ok H. subst. apply guard_ok in E. apply guard_ok in E0.
  apply Nat.eqb_eq in E. pose proof (proj1 (in_range_spec F B acc) E0). auto.
Qed.

(** ** Extended numbers: minima *)
Lemma xle_refl a : is_nan a = false -> xle a a = true.
Proof.
  unfold xle. destruct a; cbn; intros H; try discriminate; auto. rewrite qeq_refl, orb_true_r. auto.
Qed.
Lemma xle_fin a b : xle (Fin a) (Fin b) = true <-> (a <= b)%Qc.
Proof.
  unfold xle. cbn. rewrite orb_true_iff, qlt_spec, qeq_spec. split.
  - intros [H| ->]; [now apply qlt_le|apply qle_refl].
  - intros H. destruct (q_total a b) as [?|[?|?]]; auto. exfalso. qlra.
Qed.
Lemma xle_trans a b c : xle a b = true -> xle b c = true -> xle a c = true.
Proof.
  destruct a, b, c; cbn; auto; try discriminate.
  intros H1 H2. apply xle_fin in H1. apply xle_fin in H2. apply xle_fin. eapply qle_trans; eauto.
Qed.
Lemma xlt_xle a b : xlt a b = true -> xle a b = true.
Proof. unfold xle. now intros ->. Qed.
Lemma xnlt_xle a b : is_nan a = false -> is_nan b = false -> xlt b a = false -> xle a b = true.
Proof.
  destruct a, b; cbn; try discriminate; auto. intros _ _ H. apply xle_fin. now apply qlt_false.
Qed.
Lemma xle_eq_antisym a b : xle a b = true -> xle b a = true -> xeq a b = true.
Proof.
  destruct a, b; cbn; auto; try discriminate. intros H1 H2. apply xle_fin in H1. apply xle_fin in H2.
  apply qeq_spec. now apply qle_antisym.
Qed.
Lemma xeq_eq a b : xeq a b = true <-> a = b /\ is_nan a = false.
Proof.
  destruct a, b; cbn; split; intros H; try discriminate; try (destruct H; discriminate); auto.
  - apply qeq_spec in H. now subst.
  - destruct H as [H _]. injection H as ->. apply qeq_refl.
Qed.

Lemma xnanmin_list_spec l m : xnanmin_list l = Ok m -> (forall x, In x l -> is_nan x = false) ->
  In m l /\ forall x, In x l -> xle m x = true.
Proof.
  destruct l as [|a l]; [discriminate|]. cbn. intros H NN. injection H as <-.
  assert (G : forall l a, (forall x, In x (a :: l) -> is_nan x = false) ->
            In (fold_left xnanmin2 l a) (a :: l) /\ forall x, In x (a :: l) -> xle (fold_left xnanmin2 l a) x = true).
  { clear. induction l as [|b l IH]; intros a NN; cbn [fold_left].
    - split; [now left|]. intros x [<-|[]]. apply xle_refl, NN. now left.
    - assert (Na : is_nan a = false) by (apply NN; now left).
      assert (Nb : is_nan b = false) by (apply NN; right; now left).
      unfold xnanmin2 at 2 4. rewrite Na, Nb.
      destruct (IH (if xlt b a then b else a)) as [I L].
      { intros x [<-|J]; [destruct (xlt b a); auto|apply NN; right; now right]. }
      split.
      + destruct I as [E|I]; [|right; now right]. rewrite <- E. destruct (xlt b a); [right; now left|now left].
      + assert (L0 : xle (fold_left xnanmin2 l (if xlt b a then b else a)) (if xlt b a then b else a) = true) by (apply L; now left).
        intros x [<-|[<-|J]].
        * eapply xle_trans; [exact L0|]. destruct (xlt b a) eqn:E; [now apply xlt_xle|now apply xle_refl].
        * eapply xle_trans; [exact L0|]. destruct (xlt b a) eqn:E; [now apply xle_refl|now apply xnlt_xle].
        * apply L. now right. }
  apply G, NN.
Qed.

Lemma best_cells_spec F B est best :
  best_cells F B est = Ok best -> (forall f b, f < F -> b < B -> is_nan (est f b) = false) ->
  best <> [] /\ exists m, (exists f b, f < F /\ b < B /\ est f b = m) /\
    best = filter (fun c => xeq (est (fst c) (snd c)) m) (cells F B) /\
    (forall f b, In (f, b) best -> f < F /\ b < B /\ est f b = m) /\
    (forall f b, f < F -> b < B -> xle m (est f b) = true).
Proof.
  unfold best_cells. intros H NN. inv_ok H. subst best.
  apply xnanmin_list_spec in E.
  2:{ intros x I. unfold flat in I. apply in_map_iff in I. destruct I as [[f b] [<- I]].
      apply cells_in in I. cbn. now apply NN. }
  destruct E as [I L].
  assert (EX : exists f b, f < F /\ b < B /\ est f b = r).
  { unfold flat in I. apply in_map_iff in I. destruct I as [[f b] [<- I]]. apply cells_in in I. exists f, b. tauto. }
  split.
  - destruct EX as [f [b [Hf [Hb E]]]]. intros K.
    assert (In (f, b) (filter (fun c => xeq (est (fst c) (snd c)) r) (cells F B))).
    { apply filter_In. split; [now apply cells_in|]. cbn. apply xeq_eq. split; auto. }
    rewrite K in H. destruct H.
  - exists r. split; auto. split; auto. split.
    + intros f b J. apply filter_In in J. destruct J as [J1 J2]. apply cells_in in J1. cbn in J2.
      apply xeq_eq in J2. tauto.
    + intros f b Hf Hb. apply L. unfold flat. apply in_map_iff. exists (f, b). split; auto. now apply cells_in.
Qed.

(** ** The loop over features of sample_targets *)
Definition step_ok M m X Y psize (P Q : nat -> hist -> Prop) (R : nat -> nat -> Qc -> Prop) : Prop :=
  forall f h h' bs rv, P f h -> hist_add h X Y = Ok h' ->
    get_impurity_reductions M m h' bs psize = Ok rv ->
    Q f h' /\ length (fst rv) = length bs /\ length (snd rv) = length bs /\
    forall i b ir, nth_error bs i = Some b -> nth_error (fst rv) i = Some ir -> R f b ir.

Lemma st_fold M m X Y psize P Q R : step_ok M m X Y psize P Q R ->
  forall g s s',
  foldM (st_step M m X Y psize) s g = Ok s' ->
  NoDup (map fst g) ->
  (forall f h, In f (map fst g) -> nth_error (st_hists s) f = Some h -> P f h) ->
  length (st_hists s') = length (st_hists s) /\
  (forall f h, In f (map fst g) -> nth_error (st_hists s') f = Some h -> Q f h) /\
  (forall f, ~ In f (map fst g) -> nth_error (st_hists s') f = nth_error (st_hists s) f) /\
  (forall f h, nth_error (st_hists s) f = Some h -> exists h', nth_error (st_hists s') f = Some h' /\ h_edges h' = h_edges h /\ h_nb h' = h_nb h) /\
  st_q s' = st_q s + length g * length X /\
  (exists irs cbs, st_ir s' = st_ir s ++ map Fin irs /\ st_cb s' = st_cb s ++ cbs /\
     length irs = length (flatten g) /\ length cbs = length (flatten g) /\
     forall i f b ir, nth_error (flatten g) i = Some (f, b) -> nth_error irs i = Some ir -> R f b ir) /\
  (forall f, In f (map fst g) -> f < length (st_hists s)).
Proof.
  intros SO. induction g as [|[f bs] g IH]; intros s s' H ND HP; cbn in H.
  - injection H as <-. split; auto. split; [intros f h []|]. split; auto. split; [eauto|]. split; [cbn; lia|].
    split; [|intros f []]. exists [], []. cbn. rewrite !app_nil_r. repeat split; auto. intros [|i]; discriminate.
  - apply rbind_ok in H. destruct H as [s1 [E H]]. inversion ND as [|x l N ND']; subst.
    unfold st_step in E. cbn [fst snd] in E.
    apply rbind_ok in E. destruct E as [h [E1 E]]. apply rbind_ok in E. destruct E as [h' [E2 E]].
    apply rbind_ok in E. destruct E as [rv [E3 E]]. injection E as <-.
    apply nth_res_ok in E1.
    assert (Lf : f < length (st_hists s)) by (apply nth_error_Some; congruence).
    destruct (SO f h h' bs rv) as [HQ [L1 [L2 HR]]]; auto. { apply HP; auto. now left. }
    destruct (IH _ _ H ND') as [A1 [A2 [A3 [A4 [A5 [A6 A7]]]]]].
    { cbn. intros f' h0 I K. apply HP; [now right|]. rewrite set_nth_nth in K.
      destruct (f' =? f) eqn:QQ; auto. apply Nat.eqb_eq in QQ. subst. contradiction. }
    cbn in A1, A3, A4, A5, A6, A7. rewrite set_nth_length in A1, A7. split; [exact A1|].
    split.
    { intros f' h0 [<-|I] K; [|eauto]. cbn in K. rewrite A3 in K by auto. rewrite set_nth_nth, Nat.eqb_refl, E1 in K.
      injection K as <-. exact HQ. }
    split.
    { intros f' I. rewrite A3 by (intro; apply I; now right). rewrite set_nth_nth.
      destruct (f' =? f) eqn:K; auto. apply Nat.eqb_eq in K. subst. destruct I. now left. }
    split.
    { intros f' h0 K. destruct (Nat.eq_dec f' f) as [->|Ne].
      - rewrite E1 in K. injection K as <-.
        destruct (A4 f h') as [h2 [K1 [K2 K3]]]. { rewrite set_nth_nth, Nat.eqb_refl, E1. reflexivity. }
        exists h2. destruct (hist_add_same _ _ _ _ E2) as [? [? [? [W1 [? [? [? W2]]]]]]]. rewrite K2, K3. auto.
      - apply A4. rewrite set_nth_nth. apply Nat.eqb_neq in Ne. now rewrite Ne. }
    split. { rewrite A5. cbn. lia. }
    split.
    + destruct A6 as [irs [cbs [B1 [B2 [B3 [B4 B5]]]]]].
      exists (fst rv ++ irs), (map (xsqrt M) (snd rv) ++ cbs).
      unfold flatten in *. cbn [map concat fst snd]. rewrite map_app, !app_assoc, <- B1.
      rewrite !app_length, map_length, map_length. rewrite B3, B4, L1, L2. repeat split; auto.
      * intros i f' b ir K1 K2. destruct (le_lt_dec (length bs) i) as [Le|Lt].
        -- rewrite nth_error_app2 in K1 by now rewrite map_length.
           rewrite nth_error_app2 in K2 by lia. rewrite map_length in K1. rewrite L1 in K2. eapply B5; eauto.
        -- rewrite nth_error_app1 in K1 by now rewrite map_length.
           rewrite nth_error_app1 in K2 by lia. rewrite nth_error_map in K1.
           destruct (nth_error bs i) as [b0|] eqn:K3; [|discriminate]. cbn in K1. injection K1 as <- <-. eauto.
    + intros f' [<-|I]; auto.
Qed.

(** ** Taking all rows *)
Lemma take_idx_arange {A} (l : list A) n : n <= length l -> take_idx l (arange n) = Ok (firstn n l).
Proof.
  intros L. apply mapM_Forall2. unfold arange.
  assert (G : forall n (l : list A) k pre, length pre = k -> n <= length l ->
    Forall2 (fun a b => nth_res (pre ++ l) a = Ok b) (seq k n) (firstn n l)).
  { clear. induction n as [|n IH]; intros l k pre H Hl; cbn; [constructor|].
    destruct l as [|a l]; cbn in *; [lia|]. constructor.
    - apply nth_res_ok. rewrite nth_error_app2, H, Nat.sub_diag by lia. reflexivity.
    - replace (pre ++ a :: l) with ((pre ++ [a]) ++ l) by now rewrite <- app_assoc.
      apply IH; [rewrite app_length; cbn; lia|lia]. }
  apply (G n l 0 []); auto.
Qed.
Lemma take_idx_all {A} (l : list A) : take_idx l (arange (length l)) = Ok l.
Proof. rewrite take_idx_arange by lia. now rewrite firstn_all. Qed.
Lemma arange_length n : length (arange n) = n.
Proof. apply seq_length. Qed.

Lemma draw_rows_all N batch t : N <= batch ->
  exists rest, draw_rows N batch (Some (arange N)) t = Ok (arange N, Some N, Some rest, t) /\ rest = [].
Proof.
  intros L. unfold draw_rows. rewrite arange_length.
  apply Nat.leb_le in L. rewrite L. cbn [rbind fst snd].
  assert (E : take_idx (arange N) (arange N) = Ok (arange N)).
  { rewrite <- (arange_length N) at 2. apply take_idx_all. }
  rewrite E. cbn [rbind]. eexists. split; [reflexivity|].
  assert (Z : forall l, (forall p, In p l -> existsb (Nat.eqb (fst p)) (arange N) = true) ->
     map snd (filter (fun ip : nat * nat => negb (existsb (Nat.eqb (fst ip)) (arange N))) l) = []).
  { induction l as [|p l IH]; intros H; cbn; auto. rewrite (H p) by now left. cbn.
    apply IH. intros; apply H; now right. }
  apply Z. intros [i j] I. apply in_combine_l in I. apply existsb_exists. exists i. split; auto. apply Nat.eqb_refl.
Qed.

(** counts_of_labels, idx_to_class and argmax. *)
From Coq Require Import List Arith Bool ZArith QArith Qcanon Lia Permutation.
From Verif Require Import Base Num Rng Histogram Utils Tree Spec TreeSpec NumFacts ListFacts HistFacts.
Import ListNotations.
Local Open Scope nat_scope.

Lemma count_occurrence_spec k l : count_occurrence k l = occurrences k l.
Proof.
  unfold count_occurrence, occurrences. induction l as [|y l IH]; auto. cbn [filter count_occ].
  destruct (qeq y k) eqn:E; destruct (Qc_eq_dec y k) as [F|F]; cbn [length]; try rewrite IH; auto.
  - apply qeq_spec in E. contradiction.
  - apply qeq_false in E. contradiction.
Qed.

Lemma cdict_get_in d k i : cdict_get d k = Some i -> In (k, i) d.
Proof.
  induction d as [|[k' i'] d IH]; [discriminate|]. cbn. destruct (qeq k' k) eqn:E; auto.
  intros H. injection H as ->. apply qeq_spec in E. subst. auto.
Qed.
Lemma cdict_get_some d k i : NoDup (map fst d) -> In (k, i) d -> cdict_get d k = Some i.
Proof.
  induction d as [|[k' i'] d IH]; [contradiction|]. cbn. intros ND [H|H]; inversion ND; subst.
  - injection H as -> ->. now rewrite qeq_refl.
  - destruct (qeq k' k) eqn:E; auto. apply qeq_spec in E. subst. exfalso. apply H2. apply in_map_iff. exists (k, i). auto.
Qed.
Lemma cdict_get_none d k : cdict_get d k = None <-> ~ In k (map fst d).
Proof.
  split.
  - intros H I. apply in_map_iff in I. destruct I as [[k' i] [E I]]. cbn in E. subst k'.
    revert H. clear -I. induction d as [|[k' i'] d IH]; [contradiction|]. cbn. destruct (qeq k' k) eqn:E; [discriminate|].
    destruct I as [I|I]; auto. injection I as -> ->. rewrite qeq_refl in E. discriminate.
  - intros H. destruct (cdict_get d k) as [i|] eqn:E; auto. apply cdict_get_in in E. exfalso. apply H. apply in_map_iff. exists (k, i). auto.
Qed.

Section Counts.
Context (d : cdict) (labels : list Qc).

Lemma counts_fold l : forall cs0 cs, foldM (fun counts c =>
           do i <- opt_res (cdict_get d c) KeyError;
           do _ <- guard (i <? length counts) IndexError;
           Ok (set_nth i (count_occurrence c labels) counts)) cs0 l = Ok cs ->
  length cs = length cs0 /\ (forall c, In c l -> exists i, cdict_get d c = Some i /\ i < length cs0) /\
  (NoDup (map snd d) -> forall i x, nth_error cs i = Some x ->
     (exists c, In c l /\ cdict_get d c = Some i /\ x = count_occurrence c labels) \/
     (nth_error cs0 i = Some x /\ forall c, In c l -> cdict_get d c <> Some i)).
Proof.
  induction l as [|c l IH]; intros cs0 cs H; cbn in H.
  - injection H as ->. split; auto. split; [contradiction|]. intros _ i x E. right. split; auto.
  - apply rbind_ok in H. destruct H as [cs1 [E1 H]]. apply rbind_ok in E1. destruct E1 as [i [E1 E2]]. apply opt_res_ok in E1.
    apply rbind_ok in E2. destruct E2 as [[] [G E2]]. apply guard_ok, Nat.ltb_lt in G. injection E2 as <-.
    destruct (IH _ _ H) as [L1 [L2 L3]]. rewrite set_nth_length in *. split; auto. split.
    + intros c' [<-|I]; eauto.
    + intros ND j x E. destruct (L3 ND j x E) as [[c' [I [C1 C2]]]|[E' NO]]; [left; exists c'; split; auto; now right|].
      rewrite set_nth_nth in E'. destruct (Nat.eqb_spec j i) as [->|NE].
      * left. exists c. split; [now left|]. split; auto. destruct (nth_error cs0 i); [congruence|discriminate].
      * right. split; auto. intros c' [<-|I]; [congruence|auto].
Qed.

Lemma counts_of_labels_spec cs : good_classes d -> counts_of_labels d labels = Ok cs ->
  length cs = length d /\ (forall y, In y labels -> In y (map fst d)) /\
  (forall k i, In (k, i) d -> nth_error cs i = Some (occurrences k labels)).
Proof.
  intros [G1 [G2 G3]] H. unfold counts_of_labels in H. destruct (counts_fold _ _ _ H) as [L1 [L2 L3]]. rewrite repeat_length in *.
  split; auto. split.
  - intros y I. apply unique_in in I. destruct (L2 y I) as [i [E _]]. apply cdict_get_in in E. apply in_map_iff. exists (y, i). auto.
  - intros k i I. pose proof (G3 k i I) as LT. destruct (nth_error cs i) as [x|] eqn:E; [|apply nth_error_None in E; lia]. f_equal.
    destruct (L3 G2 i x E) as [[c [I' [C1 ->]]]|[E' NO]].
    + rewrite count_occurrence_spec. apply cdict_get_in in C1. f_equal.
      assert (INJ : forall l, NoDup (map snd l) -> In (c, i) l -> In (k, i) l -> c = k :> Qc).
      { clear. induction l as [|[a b] l IH]; [contradiction|]. cbn. intros ND H1 H2. inversion ND; subst.
        destruct H1 as [H1|H1], H2 as [H2|H2]; auto.
        - congruence.
        - injection H1 as -> ->. exfalso. apply H3. apply in_map_iff. exists (k, i). auto.
        - injection H2 as -> ->. exfalso. apply H3. apply in_map_iff. exists (c, i). auto. }
      apply (INJ d); auto.
    + assert (x = 0). { clear -E'. revert i E'. induction (length d); intros [|i] E'; cbn in E'; try discriminate; [congruence|eauto]. }
      subst x. unfold occurrences. symmetry. apply count_occ_not_In. intros I'. apply unique_in in I'. apply (NO k I').
      now apply cdict_get_some.
Qed.

Lemma counts_of_labels_total : (forall k i, In (k, i) d -> i < length d) -> (forall y, In y labels -> In y (map fst d)) ->
  exists cs, counts_of_labels d labels = Ok cs.
Proof.
  intros G H. unfold counts_of_labels.
  assert (T : exists cs, foldM (fun counts c => do i <- opt_res (cdict_get d c) KeyError; do _ <- guard (i <? length counts) IndexError;
           Ok (set_nth i (count_occurrence c labels) counts)) (repeat 0 (length d)) (unique labels) = Ok cs /\ length cs = length d).
  { apply foldM_total; [apply repeat_length|]. intros c cs I EL. apply unique_in, H in I.
    destruct (cdict_get d c) as [i|] eqn:E; [|apply cdict_get_none in E; contradiction]. cbn.
    apply cdict_get_in, G in E. rewrite guard_true by (apply Nat.ltb_lt; lia). cbn. eexists. split; eauto. now rewrite set_nth_length. }
  destruct T as [cs [T _]]. eauto.
Qed.

Lemma counts_of_labels_keyerror y : (forall k i, In (k, i) d -> i < length d) -> In y labels -> ~ In y (map fst d) -> counts_of_labels d labels = Err KeyError.
Proof.
  intros G I NI. unfold counts_of_labels. assert (IU : In y (unique labels)) by now apply unique_in.
  assert (L0 : length (repeat 0 (length d)) = length d) by apply repeat_length. revert L0.
  generalize (repeat 0 (length d)). induction (unique labels) as [|c l IH]; [contradiction|]. intros cs L0. cbn.
  destruct IU as [<-|IU].
  - assert (E : cdict_get d c = None) by now apply cdict_get_none. rewrite E. reflexivity.
  - destruct (cdict_get d c) as [i|] eqn:E; [|reflexivity]. cbn. apply cdict_get_in, G in E. rewrite guard_true by (apply Nat.ltb_lt; lia). cbn.
    apply IH; auto. now rewrite set_nth_length.
Qed.
End Counts.

Lemma occurrences_total (ks : list Qc) labels : NoDup ks -> (forall y, In y labels -> In y ks) ->
  list_sum (map (fun k => occurrences k labels) ks) = length labels.
Proof.
  intros ND. induction labels as [|y l IH]; intros H.
  - cbn. clear. induction ks; auto.
  - assert (IH' := IH (fun z I => H z (or_intror I))). cbn [length]. rewrite <- IH'.
    assert (Y : In y ks) by (apply H; now left). clear - ND Y.
    induction ks as [|k ks IH]; [contradiction|]. inversion ND; subst. cbn [map]. change (list_sum (?a :: ?b)) with (a + list_sum b).
    unfold occurrences at 1. cbn [count_occ]. destruct Y as [->|Y].
    + destruct (Qc_eq_dec y y); [|contradiction].
      assert (E : map (fun k => occurrences k (y :: l)) ks = map (fun k => occurrences k l) ks).
      { apply map_ext_in. intros a I. unfold occurrences. cbn. destruct (Qc_eq_dec y a); [|auto]. subst. contradiction. }
      rewrite E. reflexivity.
    + destruct (Qc_eq_dec y k); [subst; contradiction|]. rewrite IH; auto.
Qed.

Lemma perm_seq l n : NoDup l -> length l = n -> (forall i, In i l -> i < n) -> Permutation l (seq 0 n).
Proof.
  intros ND L H. apply NoDup_Permutation_bis; auto.
  - rewrite seq_length. lia.
  - intros i I. apply in_seq. specialize (H i I). lia.
Qed.
Lemma map_nth_seq {A} (l : list A) d : map (fun i => nth i l d) (seq 0 (length l)) = l.
Proof.
  induction l as [|a l IH]; auto. cbn [length seq map nth]. f_equal. rewrite <- seq_shift, map_map. cbn. exact IH.
Qed.

Lemma counts_total d labels cs : good_classes d -> counts_of_labels d labels = Ok cs -> list_sum cs = length labels.
Proof.
  intros G H. destruct (counts_of_labels_spec _ _ _ G H) as [L1 [L2 L3]]. destruct G as [G1 [G2 G3]].
  rewrite <- (occurrences_total (map fst d) labels G1 L2).
  assert (P : Permutation (map snd d) (seq 0 (length cs))).
  { apply perm_seq; auto; [now rewrite map_length|]. intros i I. apply in_map_iff in I. destruct I as [[k j] [<- I]]. rewrite L1. eapply G3; eauto. }
  rewrite <- (map_nth_seq cs 0) at 1.
  assert (Q : Permutation (map (fun i => nth i cs 0) (seq 0 (length cs))) (map (fun i => nth i cs 0) (map snd d))) by (apply Permutation_map, Permutation_sym, P).
  assert (LS : forall l1 l2, Permutation l1 l2 -> list_sum l1 = list_sum l2).
  { clear. induction 1; auto; [change (list_sum (?a :: ?b)) with (a + list_sum b); lia| |congruence].
    change (list_sum (y :: x :: l)) with (y + (x + list_sum l)). change (list_sum (x :: y :: l)) with (x + (y + list_sum l)). lia. }
  rewrite (LS _ _ Q), !map_map. f_equal. apply map_ext_in. intros [k i] I. cbn. apply nth_error_nth. now apply L3.
Qed.

(** idx_to_class *)
Lemma idx_to_class_in d i k : idx_to_class d i = Some k -> In (k, i) d.
Proof.
  induction d as [|[a b] d IH]; [discriminate|]. cbn. destruct (idx_to_class d i); [intros H; right; auto|].
  destruct (Nat.eqb_spec b i); [|discriminate]. intros H. injection H as ->. subst. auto.
Qed.
Lemma idx_to_class_total d i : good_classes d -> i < length d -> exists k, idx_to_class d i = Some k.
Proof.
  intros [G1 [G2 G3]] H.
  assert (P : Permutation (map snd d) (seq 0 (length d))).
  { apply perm_seq; auto; [now rewrite map_length|]. intros j I. apply in_map_iff in I. destruct I as [[k j'] [<- I]]. eapply G3; eauto. }
  assert (I : In i (map snd d)) by (eapply Permutation_in; [apply Permutation_sym; exact P|]; apply in_seq; lia).
  clear - I. induction d as [|[a b] d IH]; [contradiction|]. cbn. destruct I as [I|I].
  - cbn in I. subst. destruct (idx_to_class d i); eauto. rewrite Nat.eqb_refl. eauto.
  - destruct (IH I) as [k ->]. eauto.
Qed.

(** argmax *)
Lemma argmax_from_spec l : forall k best bv all, 
  nth_error all best = Some bv -> best < k -> k + length l = length all -> (forall j a, nth_error l j = Some a -> nth_error all (k + j) = Some a) ->
  (forall j a, j < k -> nth_error all j = Some a -> (a <= bv)%Qc) -> (forall j a, j < best -> nth_error all j = Some a -> (a < bv)%Qc) ->
  exists m, nth_error all (argmax_from k best bv l) = Some m /\ (forall j a, nth_error all j = Some a -> (a <= m)%Qc) /\
    (forall j a, j < argmax_from k best bv l -> nth_error all j = Some a -> (a < m)%Qc).
Proof.
  induction l as [|a l IH]; intros k best bv all HB LB LN HL HM HF; cbn [argmax_from].
  - exists bv. split; auto. split; auto. intros j a E. cbn in LN. apply (HM j a); auto.
    assert (j < length all) by (apply nth_error_Some; congruence). lia.
  - assert (HA : nth_error all k = Some a) by (specialize (HL 0 a eq_refl); now rewrite Nat.add_0_r in HL).
    assert (HL' : forall j x, nth_error l j = Some x -> nth_error all (S k + j) = Some x).
    { intros j x E. replace (S k + j) with (k + S j) by lia. now apply HL. }
    cbn [length] in LN. destruct (qlt bv a) eqn:Q.
    + apply qlt_spec in Q. apply IH; auto; try lia.
      * intros j x LT E. destruct (Nat.eq_dec j k) as [->|NE]; [rewrite HA in E; injection E as ->; apply qle_refl|].
        assert (x <= bv)%Qc by (apply (HM j); auto; lia). qlra.
      * intros j x LT E. assert (x <= bv)%Qc by (apply (HM j); auto; lia). qlra.
    + apply qlt_false in Q. apply IH; auto; try lia.
      intros j x LT E. destruct (Nat.eq_dec j k) as [->|NE]; [rewrite HA in E; injection E as <-; auto|]. apply (HM j); auto; lia.
Qed.
Lemma argmax_spec l i : argmax l = Ok i -> exists m, nth_error l i = Some m /\ (forall j a, nth_error l j = Some a -> (a <= m)%Qc) /\
  (forall j a, j < i -> nth_error l j = Some a -> (a < m)%Qc).
Proof.
  destruct l as [|a l]; [discriminate|]. intros H. injection H as <-. apply argmax_from_spec; cbn; auto.
  - intros [|j] x LT E; [|lia]. cbn in E. injection E as ->. apply qle_refl.
  - intros j x LT; lia.
Qed.

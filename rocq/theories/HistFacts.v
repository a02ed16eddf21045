(** Facts about histograms: bin indices agree with edges, counts and piles. *)
From Coq Require Import List Arith Bool ZArith QArith Qcanon Lia Permutation Sorted.
From Verif Require Import Base Num Rng Histogram Spec NumFacts ListFacts.
Import ListNotations.
Local Open Scope nat_scope.

(** ** Sorting *)
Lemma uinsert_in a l x : In x (uinsert a l) <-> x = a \/ In x l.
Proof.
  induction l as [|b t IH]; cbn [uinsert].
  - cbn. intuition.
  - destruct (qlt a b) eqn:E1; [cbn; intuition|].
    destruct (qeq a b) eqn:E2.
    + apply qeq_spec in E2. subst. cbn. intuition.
    + cbn [In]. rewrite IH. intuition.
Qed.
Lemma unique_in l x : In x (unique l) <-> In x l.
Proof.
  induction l as [|a l IH]; cbn [unique fold_right]; [tauto|].
  change (fold_right uinsert [] l) with (unique l). rewrite uinsert_in, IH. cbn. intuition.
Qed.
Lemma uinsert_sorted a l : StronglySorted Qclt l -> StronglySorted Qclt (uinsert a l).
Proof.
  induction 1 as [|b t S IH F]; cbn [uinsert]; [repeat constructor|].
  destruct (qlt a b) eqn:E1.
  - apply qlt_spec in E1. constructor; [constructor; auto|]. constructor; auto.
    rewrite Forall_forall in *. intros x I. apply F in I. eapply Qclt_trans; eauto.
  - destruct (qeq a b) eqn:E2; [constructor; auto|].
    constructor; auto. rewrite Forall_forall in *. intros x I. apply uinsert_in in I.
    destruct I as [->|I]; auto. apply qlt_false in E1. apply qeq_false in E2.
    destruct (q_total b a) as [?|[?|L]]; auto; [congruence|].
    exfalso. qlra.
Qed.
Lemma unique_sorted l : StronglySorted Qclt (unique l).
Proof.
  induction l as [|a l IH]; cbn [unique fold_right]; [constructor|].
  now apply uinsert_sorted.
Qed.
Lemma sorted_lt_nodup l : StronglySorted Qclt l -> NoDup l.
Proof.
  induction 1 as [|b t S IH F]; constructor; auto. rewrite Forall_forall in F.
  intros I. apply F in I. now apply qlt_irrefl in I.
Qed.
Lemma unique_nodup l : NoDup (unique l).
Proof. apply sorted_lt_nodup, unique_sorted. Qed.
Lemma sorted_lt_le l : StronglySorted Qclt l -> StronglySorted Qcle l.
Proof.
  induction 1 as [|b t S IH F]; constructor; auto. rewrite Forall_forall in *.
  intros x I. apply qlt_le. auto.
Qed.
Lemma sinsert_in a l x : In x (sinsert a l) <-> x = a \/ In x l.
Proof.
  induction l as [|b t IH]; cbn [sinsert].
  - cbn. intuition.
  - destruct (qle a b) eqn:E1; cbn [In]; [intuition|]. rewrite IH. intuition.
Qed.
Lemma sinsert_sorted a l : StronglySorted Qcle l -> StronglySorted Qcle (sinsert a l).
Proof.
  induction 1 as [|b t S IH F]; cbn [sinsert]; [repeat constructor|].
  destruct (qle a b) eqn:E1.
  - apply qle_spec in E1. constructor; [constructor; auto|]. constructor; auto.
    rewrite Forall_forall in *. intros x I. apply F in I. eapply qle_trans; eauto.
  - apply qle_false in E1. constructor; auto. rewrite Forall_forall in *. intros x I.
    apply sinsert_in in I. destruct I as [->|I]; auto. now apply qlt_le.
Qed.
Lemma qsort_sorted l : StronglySorted Qcle (qsort l).
Proof.
  induction l as [|a l IH]; cbn [qsort fold_right]; [constructor|].
  now apply sinsert_sorted.
Qed.
Lemma sinsert_perm a l : Permutation (sinsert a l) (a :: l).
Proof.
  induction l as [|b t IH]; cbn [sinsert]; auto.
  destruct (qle a b); auto. rewrite IH. apply perm_swap.
Qed.
Lemma qsort_perm l : Permutation (qsort l) l.
Proof.
  induction l as [|a l IH]; cbn [qsort fold_right]; auto.
  change (fold_right sinsert [] l) with (qsort l). rewrite sinsert_perm. auto.
Qed.
Lemma qsort_length l : length (qsort l) = length l.
Proof. apply Permutation_length, qsort_perm. Qed.

(** Two strictly increasing lists with the same elements are equal. *)
Lemma sorted_lt_ext l1 l2 : StronglySorted Qclt l1 -> StronglySorted Qclt l2 ->
  (forall x, In x l1 <-> In x l2) -> l1 = l2.
Proof.
  intros H. revert l2. induction H as [|a t S IH F]; intros l2 H2 E.
  - destruct l2 as [|b l2]; auto. destruct (proj2 (E b)). now left.
  - destruct H2 as [|b t2 S2 F2]; [destruct (proj1 (E a)); now left|].
    rewrite Forall_forall in *.
    assert (a = b).
    { destruct (proj1 (E a)) as [->|I]; [now left|auto|].
      destruct (proj2 (E b)) as [->|J]; [now left|auto|].
      apply F2 in I. apply F in J. exfalso. qlra. }
    subst b. f_equal. apply IH; auto. intros x. split; intros I.
    + destruct (proj1 (E x)) as [->|J]; [now right| |auto].
      apply F in I. now apply qlt_irrefl in I.
    + destruct (proj2 (E x)) as [->|J]; [now right| |auto].
      apply F2 in I. now apply qlt_irrefl in I.
Qed.
Lemma unique_ext l1 l2 : (forall x, In x l1 <-> In x l2) -> unique l1 = unique l2.
Proof.
  intros E. apply sorted_lt_ext; try apply unique_sorted.
  intros x. rewrite !unique_in. auto.
Qed.

(** ** Bin indices *)
Lemma linear_index_spec mn mx nb v b :
  (mn < mx)%Qc -> 2 <= nb -> b < nb ->
  (linear_index mn mx nb v <= b <-> (v <= mn + (mx - mn) * (Nq b / Nq (nb - 1)))%Qc).
Proof.
  intros Hm Hn Hb. unfold linear_index.
  destruct (nb =? 1) eqn:E1; [apply Nat.eqb_eq in E1; lia|]. clear E1.
  replace (Zq (Z.of_nat nb - 1)) with (Nq (nb - 1)) by (unfold Nq; f_equal; lia).
  set (k := Nq (nb - 1)).
  assert (Hk : (0 < k)%Qc) by (apply Nq_pos; lia).
  set (w := ((mx - mn) / k)%Qc).
  assert (Hw : (0 < w)%Qc). { apply qdiv_lt_0; auto. qlra. }
  set (z := qceil ((v - mn) / w)%Qc).
  assert (Hz : (z <= Z.of_nat b)%Z <-> (v <= mn + (mx - mn) * (Nq b / k))%Qc).
  { unfold z. rewrite qceil_le, qdiv_le_iff by auto. fold (Nq b).
    replace ((mx - mn) * (Nq b / k))%Qc with (Nq b * w)%Qc
      by (unfold w; field; apply qpos_neq; auto).
    split; intros; qlra. }
  rewrite <- Hz.
  destruct (z <? 0)%Z eqn:E1; [apply Z.ltb_lt in E1; lia|apply Z.ltb_ge in E1].
  destruct (Z.of_nat nb - 1 <? z)%Z eqn:E2; [apply Z.ltb_lt in E2; lia|apply Z.ltb_ge in E2].
  lia.
Qed.

Lemma search_index_spec edges v b e :
  StronglySorted Qcle edges -> nth_error edges b = Some e ->
  (search_index edges v <= b <-> (v <= e)%Qc).
Proof.
  intros S. revert b. unfold search_index.
  assert (Z : forall a t, Forall (Qcle a) t -> (v <= a)%Qc -> filter (fun x => qlt x v) t = []).
  { intros a t F L. induction F as [|x t Hx F IH]; cbn; auto.
    assert (E : qlt x v = false) by (apply qlt_false; eapply qle_trans; eauto).
    rewrite E. auto. }
  induction S as [|a t S IH F]; intros [|b] E; cbn in E; try discriminate.
  - injection E as ->. cbn [filter]. destruct (qlt e v) eqn:L; cbn [length].
    + apply qlt_spec in L. split; [lia|]. intros. exfalso. qlra.
    + apply qlt_false in L. rewrite (Z e t) by auto. cbn. split; auto; lia.
  - cbn [filter]. destruct (qlt a v) eqn:L; cbn [length].
    + rewrite <- (IH b E). lia.
    + apply qlt_false in L. rewrite (Z a t) by auto. cbn.
      rewrite Forall_forall in F. apply nth_error_In in E. apply F in E.
      split; [intros; eapply qle_trans; eauto|lia].
Qed.

(** A histogram whose bin indices agree with its edges. *)
Definition agrees (h : hist) (edges : list Qc) : Prop :=
  forall v b e, nth_error edges b = Some e ->
    (get_bin (h_type h) (h_min h) (h_max h) (h_nb h) edges v <=? b) = qle v e.

Lemma agrees_intro h edges :
  (forall v b e, nth_error edges b = Some e ->
    (get_bin (h_type h) (h_min h) (h_max h) (h_nb h) edges v <= b <-> (v <= e)%Qc)) ->
  agrees h edges.
Proof.
  intros H v b e E. specialize (H v b e E).
  destruct (qle v e) eqn:Q.
  - apply Nat.leb_le, H, qle_spec, Q.
  - apply Nat.leb_gt. apply qle_false in Q. destruct (le_lt_dec (get_bin (h_type h) (h_min h) (h_max h) (h_nb h) edges v) b) as [L|L]; auto.
    apply H in L. exfalso. qlra.
Qed.

Lemma linear_bin_length mn mx nb : length (linear_bin mn mx nb) = nb.
Proof. unfold linear_bin. now rewrite map_length, seq_length. Qed.
Lemma linear_bin_nth mn mx nb b e : nth_error (linear_bin mn mx nb) b = Some e ->
  b < nb /\ e = (mn + (mx - mn) * (Nq b / Nq (nb - 1)))%Qc.
Proof.
  intros H. assert (L : b < nb).
  { rewrite <- (linear_bin_length mn mx nb). apply nth_error_Some. congruence. }
  split; auto. unfold linear_bin in H. rewrite nth_error_map in H.
  rewrite (nth_error_nth' _ 0) in H by now rewrite seq_length.
  rewrite seq_nth in H by auto. cbn in H. congruence.
Qed.

Lemma uniforms_length lo hi k t : length (fst (uniforms lo hi k t)) = k.
Proof.
  revert t. induction k as [|k IH]; intros t; cbn [uniforms]; auto.
  destruct (draw t) as [a t1], (draw t1) as [b t2].
  specialize (IH t2). destruct (uniforms lo hi k t2). cbn in *. auto.
Qed.
Lemma uniforms_range lo hi k t x : (lo <= hi)%Qc -> In x (fst (uniforms lo hi k t)) ->
  (lo <= x /\ x <= hi)%Qc.
Proof.
  intros H. revert t. induction k as [|k IH]; intros t; cbn [uniforms]; [intros []|].
  destruct (draw t) as [a t1], (draw t1) as [b t2].
  specialize (IH t2). destruct (uniforms lo hi k t2) as [l t3]. cbn in *.
  intros [<-|I]; auto.
  assert (P : (0 < Nq (a + b + 1))%Qc) by (apply Nq_pos; lia).
  assert (0 <= Nq a / Nq (a + b + 1))%Qc by (apply qdiv_le_0; auto; apply Nq_nonneg).
  assert (Nq a / Nq (a + b + 1) <= 1)%Qc.
  { apply qdiv_le_iff; auto. rewrite Qcmult_1_l. apply Nq_le. lia. }
  set (u := (Nq a / Nq (a + b + 1))%Qc) in *. clearbody u. split; qnra.
Qed.

(** What new_hist returns. *)
Definition fresh (h : hist) : Prop :=
  h_cpile h = pile0 /\
  match h_edges h with
  | None => h_nb h = 0
  | Some e => length e = h_nb h /\
      if h_class h then
        h_left h = repeat (repeat 0 (length (h_classes h))) (h_nb h) /\
        h_right h = repeat (repeat 0 (length (h_classes h))) (h_nb h)
      else h_lpile h = repeat pile0 (h_nb h) /\ h_rpile h = repeat pile0 (h_nb h)
  end.

Lemma alloc_hist_fresh ic f cl nb mn mx ty e :
  length e = nb -> fresh (alloc_hist ic f cl nb mn mx ty e).
Proof. intros H. unfold fresh. cbn. destruct ic; auto. Qed.

Lemma discrete_bin_length uf nb e : discrete_bin uf nb = Ok e -> length e = nb.
Proof.
  unfold discrete_bin. destruct uf as [d|]; [|discriminate].
  destruct (nb =? 0); [discriminate|]. destruct d; [discriminate|].
  intros H. apply mapM_length in H. now rewrite seq_length in H.
Qed.

Lemma new_hist_fresh ic f uf fd cl nb mn mx ty t h t' :
  new_hist ic f uf fd cl nb mn mx ty t = Ok (h, t') -> fresh h.
Proof.
  unfold new_hist. destruct ty; intros H; try discriminate.
  - destruct (qeq mn mx); injection H as <- <-.
    + unfold fresh. cbn. auto.
    + apply alloc_hist_fresh, linear_bin_length.
  - inv_ok H. subst. apply alloc_hist_fresh. eapply discrete_bin_length; eauto.
  - injection H as <- <-. now apply alloc_hist_fresh.
  - destruct (random_bin mn mx nb t) as [e t1] eqn:E. injection H as <- <-.
    apply alloc_hist_fresh. unfold random_bin in E.
    pose proof (uniforms_length mn mx nb t) as U.
    destruct (uniforms mn mx nb t). injection E as <- <-. cbn in U. now rewrite qsort_length.
Qed.

Lemma new_hist_fields ic f uf fd cl nb mn mx ty t h t' :
  new_hist ic f uf fd cl nb mn mx ty t = Ok (h, t') ->
  h_class h = ic /\ h_feat h = f /\ h_classes h = cl /\ h_type h = ty.
Proof.
  unfold new_hist. destruct ty; intros H; try discriminate.
  - destruct (qeq mn mx); injection H as <- <-; cbn; auto.
  - inv_ok H. subst. cbn; auto.
  - injection H as <- <-. cbn; auto.
  - destruct (random_bin mn mx nb t) as [e t1] eqn:E. injection H as <- <-. cbn; auto.
Qed.

(** When the bin indices of a new histogram agree with its edges. *)
Definition good_bins (ty : bintype) (nb : nat) (mn mx : Qc) (uf : option dval) : Prop :=
  match ty with
  | LINEAR => (mn <= mx)%Qc /\ 2 <= nb
  | IDENTITY | RANDOM => True
  | DISCRETE => match uf with
                | Some (DList l) => StronglySorted Qcle l
                | _ => True
                end
  | _ => True
  end.

Lemma discrete_edges_sorted l w n :
  StronglySorted Qcle l -> forall e s, mapM (fun i => nth_res l (w * i)) (seq s n) = Ok e ->
  StronglySorted Qcle e.
Proof.
  intros S.
  assert (M : forall i j a b, i <= j -> nth_error l i = Some a -> nth_error l j = Some b -> (a <= b)%Qc).
  { clear - S. induction S as [|x t S IH F]; intros [|i] [|j] a b L A B; cbn in *; try discriminate; try lia.
    - rewrite A in B. injection B as ->. apply qle_refl.
    - injection A as <-. rewrite Forall_forall in F. apply F. eapply nth_error_In; eauto.
    - eapply (IH i j); eauto. lia. }
  induction n as [|n IH]; intros e s H; cbn in H.
  - injection H as <-. constructor.
  - inv_ok H. subst. constructor; [eauto|].
    rewrite Forall_forall. intros y I.
    destruct (mapM_In _ _ _ _ E0 I) as [i [Hi Hy]]. apply in_seq in Hi.
    apply nth_res_ok in E. apply nth_res_ok in Hy. eapply M; [|exact E|exact Hy].
    apply Nat.mul_le_mono_l. lia.
Qed.

Lemma new_hist_agrees ic f uf fd cl nb mn mx ty t h t' edges :
  new_hist ic f uf fd cl nb mn mx ty t = Ok (h, t') -> good_bins ty nb mn mx uf ->
  h_edges h = Some edges -> agrees h edges.
Proof.
  unfold new_hist. destruct ty; intros H G E; try discriminate; cbn in G.
  - destruct (qeq mn mx) eqn:Q; injection H as <- <-; cbn in E; [discriminate|].
    injection E as <-. destruct G as [G1 G2]. apply agrees_intro. cbn.
    intros v b e N. apply linear_bin_nth in N. destruct N as [N ->].
    apply linear_index_spec; auto. apply qeq_false in Q.
    destruct (q_total mn mx) as [?|[?|?]]; auto; [congruence|exfalso; qlra].
  - inv_ok H. subst. injection E as <-. apply agrees_intro. cbn. intros v b e N.
    apply search_index_spec; auto. unfold discrete_bin in E0. destruct uf as [d|]; [|discriminate].
    destruct (nb =? 0); [discriminate|]. destruct d; [discriminate|].
    eapply discrete_edges_sorted; eauto.
  - injection H as <- <-. injection E as <-. apply agrees_intro. cbn. intros v b e N.
    apply search_index_spec; auto. apply sorted_lt_le, unique_sorted.
  - destruct (random_bin mn mx nb t) as [e0 t1] eqn:R. injection H as <- <-.
    injection E as <-. apply agrees_intro. cbn. intros v b e N.
    apply search_index_spec; auto. unfold random_bin in R. destruct (uniforms mn mx nb t).
    injection R as <- <-. apply qsort_sorted.
Qed.

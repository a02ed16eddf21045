(** Facts about rationals, boolean comparisons and counting embeddings. *)
From Coq Require Import List Arith Bool ZArith QArith Qcanon Qround Lia Lqa Permutation.
From Verif Require Import Base Num.
Import ListNotations.
Local Open Scope Qc_scope.

Lemma this_plus a b : (this (a + b) == this a + this b)%Q.
Proof. unfold Qcplus, Q2Qc; cbn [this]. apply Qred_correct. Qed.
Lemma this_mult a b : (this (a * b) == this a * this b)%Q.
Proof. unfold Qcmult, Q2Qc; cbn [this]. apply Qred_correct. Qed.
Lemma this_opp a : (this (- a) == - this a)%Q.
Proof. unfold Qcopp, Q2Qc; cbn [this]. apply Qred_correct. Qed.
Lemma this_minus a b : (this (a - b) == this a - this b)%Q.
Proof. unfold Qcminus. rewrite this_plus, this_opp. reflexivity. Qed.
Lemma this_inv a : (this (/ a) == / this a)%Q.
Proof. unfold Qcinv, Q2Qc; cbn [this]. apply Qred_correct. Qed.
Lemma this_div a b : (this (a / b) == this a / this b)%Q.
Proof. unfold Qcdiv. rewrite this_mult, this_inv. reflexivity. Qed.
Lemma this_0 : (this 0 == 0)%Q. Proof. reflexivity. Qed.
Lemma this_1 : (this 1 == 1)%Q. Proof. reflexivity. Qed.
Lemma this_Q2Qc q : (this (Q2Qc q) == q)%Q. Proof. apply Qred_correct. Qed.
Lemma eq_this (a b : Qc) : a = b -> (this a == this b)%Q.
Proof. intros ->; reflexivity. Qed.
Lemma neq_this (a b : Qc) : a <> b -> ~ (this a == this b)%Q.
Proof. intros H E. apply H, Qc_is_canon, E. Qed.

Ltac qc_push :=
  unfold Qcle, Qclt in *;
  repeat match goal with
  | H : @eq Qc _ _ |- _ => apply eq_this in H
  | H : @eq Qc _ _ -> False |- _ => apply neq_this in H
  | |- ~ (@eq Qc _ _) => let H := fresh in intro H
  | |- @eq Qc _ _ => apply Qc_is_canon
  end;
  repeat first
   [ rewrite this_plus in * | rewrite this_mult in * | rewrite this_minus in *
   | rewrite this_opp in * | rewrite this_0 in * | rewrite this_1 in * ].

Ltac qlra := qc_push; lra.
Ltac qnra := qc_push; nra.

(** Boolean comparisons. *)
Lemma qle_spec a b : qle a b = true <-> a <= b.
Proof. unfold qle, Qcle. apply Qle_bool_iff. Qed.
Lemma qle_false a b : qle a b = false <-> b < a.
Proof.
  unfold qle, Qclt. split; intros H.
  - destruct (Qlt_le_dec b a) as [L|L]; [exact L|].
    apply Qle_bool_iff in L. congruence.
  - destruct (Qle_bool a b) eqn:E; [|reflexivity].
    apply Qle_bool_iff in E. lra.
Qed.
Lemma qlt_spec a b : qlt a b = true <-> a < b.
Proof. unfold qlt. change (Qle_bool b a) with (qle b a). rewrite negb_true_iff. apply qle_false. Qed.
Lemma qlt_false a b : qlt a b = false <-> b <= a.
Proof. unfold qlt. change (Qle_bool b a) with (qle b a). rewrite negb_false_iff. apply qle_spec. Qed.
Lemma qeq_spec a b : qeq a b = true <-> a = b.
Proof.
  unfold qeq. rewrite Qeq_bool_iff. split; [apply Qc_is_canon|apply eq_this].
Qed.
Lemma qeq_false a b : qeq a b = false <-> a <> b.
Proof.
  split; intros H.
  - intros E. apply qeq_spec in E. congruence.
  - destruct (qeq a b) eqn:E; [|reflexivity]. apply qeq_spec in E. contradiction.
Qed.
Lemma qeq_refl a : qeq a a = true.
Proof. now apply qeq_spec. Qed.
Lemma qlt_negb_qle a b : qlt a b = negb (qle b a).
Proof. reflexivity. Qed.

Lemma qle_refl a : a <= a. Proof. qlra. Qed.
Lemma qlt_irrefl a : ~ a < a. Proof. intro; qlra. Qed.
Lemma qlt_le a b : a < b -> a <= b. Proof. intro; qlra. Qed.
Lemma qle_trans a b c : a <= b -> b <= c -> a <= c. Proof. intros; qlra. Qed.
Lemma qle_lt_trans a b c : a <= b -> b < c -> a < c. Proof. intros; qlra. Qed.
Lemma qlt_le_trans a b c : a < b -> b <= c -> a < c. Proof. intros; qlra. Qed.
Lemma qle_antisym a b : a <= b -> b <= a -> a = b. Proof. intros; qlra. Qed.
Lemma qle_lt_dec a b : {a <= b} + {b < a}.
Proof. destruct (Qlt_le_dec b a); [right|left]; auto. Qed.
Lemma qnot_lt a b : ~ a < b -> b <= a.
Proof. intros H. destruct (qle_lt_dec b a); auto. contradiction. Qed.
Lemma qnot_le a b : ~ a <= b -> b < a.
Proof. intros H. destruct (qle_lt_dec a b); auto. contradiction. Qed.
Lemma q_total a b : a < b \/ a = b \/ b < a.
Proof.
  destruct (qle_lt_dec a b) as [H|H]; auto.
  destruct (qle_lt_dec b a) as [H'|H']; auto. right; left. apply qle_antisym; auto.
Qed.

(** Embeddings of integers. *)
Lemma Zq_this z : (this (Zq z) == inject_Z z)%Q.
Proof. unfold Zq. apply this_Q2Qc. Qed.
Lemma Zq_plus a b : Zq (a + b) = Zq a + Zq b.
Proof. apply Qc_is_canon. rewrite this_plus, !Zq_this, inject_Z_plus. reflexivity. Qed.
Lemma Zq_mult a b : Zq (a * b) = Zq a * Zq b.
Proof. apply Qc_is_canon. rewrite this_mult, !Zq_this, inject_Z_mult. reflexivity. Qed.
Lemma Zq_opp a : Zq (- a) = - Zq a.
Proof. apply Qc_is_canon. rewrite this_opp, !Zq_this, inject_Z_opp. reflexivity. Qed.
Lemma Zq_minus a b : Zq (a - b) = Zq a - Zq b.
Proof. unfold Z.sub. rewrite Zq_plus, Zq_opp. reflexivity. Qed.
Lemma Zq_le a b : (a <= b)%Z <-> Zq a <= Zq b.
Proof. unfold Qcle. rewrite !Zq_this, <- Zle_Qle. tauto. Qed.
Lemma Zq_lt a b : (a < b)%Z <-> Zq a < Zq b.
Proof. unfold Qclt. rewrite !Zq_this, <- Zlt_Qlt. tauto. Qed.
Lemma Zq_inj a b : Zq a = Zq b -> a = b.
Proof.
  intros H. apply eq_this in H. rewrite !Zq_this in H. now apply (proj1 (inject_Z_injective a b)) in H.
Qed.
Lemma Zq_0 : Zq 0 = 0. Proof. reflexivity. Qed.
Lemma Zq_1 : Zq 1 = 1. Proof. reflexivity. Qed.
Lemma Nq_0 : Nq 0 = 0. Proof. reflexivity. Qed.
Lemma Nq_1 : Nq 1 = 1. Proof. reflexivity. Qed.
Lemma Nq_plus a b : Nq (a + b) = Nq a + Nq b.
Proof. unfold Nq. rewrite Nat2Z.inj_add. apply Zq_plus. Qed.
Lemma Nq_mult a b : Nq (a * b) = Nq a * Nq b.
Proof. unfold Nq. rewrite Nat2Z.inj_mul. apply Zq_mult. Qed.
Lemma Nq_S a : Nq (S a) = Nq a + 1.
Proof. replace (S a) with (a + 1)%nat by lia. rewrite Nq_plus. reflexivity. Qed.
Lemma Nq_le a b : (a <= b)%nat <-> Nq a <= Nq b.
Proof. unfold Nq. rewrite <- Zq_le. lia. Qed.
Lemma Nq_lt a b : (a < b)%nat <-> Nq a < Nq b.
Proof. unfold Nq. rewrite <- Zq_lt. lia. Qed.
Lemma Nq_inj a b : Nq a = Nq b -> a = b.
Proof. unfold Nq. intros H. apply Zq_inj in H. lia. Qed.
Lemma Nq_nonneg a : 0 <= Nq a.
Proof. rewrite <- Nq_0. apply Nq_le. lia. Qed.
Lemma Nq_pos a : (0 < a)%nat -> 0 < Nq a.
Proof. rewrite <- Nq_0. apply Nq_lt. Qed.
Lemma Nq_neq0 a : (0 < a)%nat -> Nq a <> 0.
Proof. intros H E. apply Nq_pos in H. rewrite E in H. now apply qlt_irrefl in H. Qed.
Lemma Nq_minus a b : (b <= a)%nat -> Nq (a - b) = Nq a - Nq b.
Proof. intros H. unfold Nq. rewrite Nat2Z.inj_sub by lia. apply Zq_minus. Qed.

(** Division and order. *)
Lemma qinv_pos a : 0 < a -> 0 < / a.
Proof.
  unfold Qclt. rewrite this_0, this_inv. intros H. apply Qinv_lt_0_compat. exact H.
Qed.
Lemma qmult_le_0 a b : 0 <= a -> 0 <= b -> 0 <= a * b.
Proof. intros. qnra. Qed.
Lemma qmult_lt_0 a b : 0 < a -> 0 < b -> 0 < a * b.
Proof. intros. qnra. Qed.
Lemma qdiv_le_0 a b : 0 <= a -> 0 < b -> 0 <= a / b.
Proof. intros. unfold Qcdiv. apply qmult_le_0; auto. now apply qlt_le, qinv_pos. Qed.
Lemma qdiv_lt_0 a b : 0 < a -> 0 < b -> 0 < a / b.
Proof. intros. unfold Qcdiv. apply qmult_lt_0; auto. now apply qinv_pos. Qed.
Lemma qpos_neq a : 0 < a -> a <> 0.
Proof. intros H E. subst. now apply qlt_irrefl in H. Qed.
Lemma qdiv_mult a b : b <> 0 -> a / b * b = a.
Proof. intros. field. auto. Qed.
Lemma qle_div_iff a b c : 0 < c -> (a <= b / c <-> a * c <= b).
Proof.
  intros H. assert (N := qpos_neq _ H).
  set (d := b / c). assert (E : b = d * c) by (unfold d; field; auto). rewrite E.
  clearbody d. clear E. split; intros; qnra.
Qed.
Lemma qdiv_le_iff a b c : 0 < c -> (b / c <= a <-> b <= a * c).
Proof.
  intros H. assert (N := qpos_neq _ H).
  set (d := b / c). assert (E : b = d * c) by (unfold d; field; auto). rewrite E.
  clearbody d. clear E. split; intros; qnra.
Qed.
Lemma qlt_div_iff a b c : 0 < c -> (a < b / c <-> a * c < b).
Proof.
  intros H. assert (N := qpos_neq _ H).
  set (d := b / c). assert (E : b = d * c) by (unfold d; field; auto). rewrite E.
  clearbody d. clear E. split; intros; qnra.
Qed.
Lemma qdiv_lt_iff a b c : 0 < c -> (b / c < a <-> b < a * c).
Proof.
  intros H. assert (N := qpos_neq _ H).
  set (d := b / c). assert (E : b = d * c) by (unfold d; field; auto). rewrite E.
  clearbody d. clear E. split; intros; qnra.
Qed.
Lemma qsquare_nonneg a : 0 <= a * a.
Proof. qnra. Qed.
Lemma qmult_eq_0 a b : a * b = 0 -> a = 0 \/ b = 0.
Proof. apply Qcmult_integral. Qed.

(** ceil and floor *)
Lemma qceil_le a z : (qceil a <= z)%Z <-> a <= Zq z.
Proof.
  unfold qceil, Qcle. rewrite Zq_this. split; intros H.
  - apply Qle_trans with (inject_Z (Qceiling a)); [apply Qle_ceiling|now rewrite <- Zle_Qle].
  - apply Qceiling_resp_le in H. now rewrite Qceiling_Z in H.
Qed.
Lemma qceil_lt a z : (z < qceil a)%Z <-> Zq z < a.
Proof.
  split; intros H.
  - apply qnot_le. intros L. apply qceil_le in L. lia.
  - apply Z.nle_gt. intros L. apply qceil_le in L. revert H L. intros; qlra.
Qed.
Lemma qfloor_le a z : (z <= qfloor a)%Z <-> Zq z <= a.
Proof.
  unfold qfloor, Qcle. rewrite Zq_this. split; intros H.
  - apply Qle_trans with (inject_Z (Qfloor a)); [now rewrite <- Zle_Qle|apply Qfloor_le].
  - apply Qfloor_resp_le in H. now rewrite Qfloor_Z in H.
Qed.

(** Sums *)
Lemma qsum_app l1 l2 : qsum (l1 ++ l2) = qsum l1 + qsum l2.
Proof. induction l1 as [|a l1 IH]; cbn [app qsum]. ring. rewrite IH. ring. Qed.
Lemma qsum_perm l1 l2 : Permutation l1 l2 -> qsum l1 = qsum l2.
Proof. induction 1; cbn [qsum]; auto; try congruence. ring. Qed.
Lemma qsum_map_plus {A} (f g : A -> Qc) l :
  qsum (map (fun x => f x + g x) l) = qsum (map f l) + qsum (map g l).
Proof. induction l as [|a l IH]; cbn [map qsum]. ring. rewrite IH. ring. Qed.
Lemma qsum_map_scal {A} k (f : A -> Qc) l :
  qsum (map (fun x => k * f x) l) = k * qsum (map f l).
Proof. induction l as [|a l IH]; cbn [map qsum]. ring. rewrite IH. ring. Qed.
Lemma qsum_map_const {A} k (l : list A) : qsum (map (fun _ => k) l) = Nq (length l) * k.
Proof.
  induction l as [|a l IH]; cbn [map qsum length]. rewrite Nq_0; ring.
  rewrite IH, Nq_S. ring.
Qed.
Lemma qsum_nonneg l : (forall x, In x l -> 0 <= x) -> 0 <= qsum l.
Proof.
  induction l as [|a l IH]; cbn [qsum]; intros H. apply qle_refl.
  assert (0 <= a) by (apply H; now left).
  assert (0 <= qsum l) by (apply IH; intros; apply H; now right). qlra.
Qed.
Lemma qsum_zero l : (forall x, In x l -> 0 <= x) -> qsum l = 0 -> forall x, In x l -> x = 0.
Proof.
  induction l as [|a l IH]; cbn [qsum]; intros H E x [].
  - subst. assert (0 <= x) by (apply H; now left).
    assert (0 <= qsum l) by (apply qsum_nonneg; intros; apply H; now right). qlra.
  - apply IH; auto. { intros; apply H; now right. }
    assert (0 <= a) by (apply H; now left).
    assert (0 <= qsum l) by (apply qsum_nonneg; intros; apply H; now right). qlra.
Qed.
Lemma qsum_map_le {A} (f g : A -> Qc) l :
  (forall x, In x l -> f x <= g x) -> qsum (map f l) <= qsum (map g l).
Proof.
  induction l as [|a l IH]; cbn [map qsum]; intros H. apply qle_refl.
  assert (f a <= g a) by (apply H; now left).
  assert (qsum (map f l) <= qsum (map g l)) by (apply IH; intros; apply H; now right). qlra.
Qed.
Lemma qsum_map_ext {A} (f g : A -> Qc) l :
  (forall x, In x l -> f x = g x) -> qsum (map f l) = qsum (map g l).
Proof. intros H. f_equal. apply map_ext_in. exact H. Qed.

(** Mean bounds *)
Lemma qsum_bounds l lo hi : (forall x, In x l -> lo <= x /\ x <= hi) ->
  Nq (length l) * lo <= qsum l /\ qsum l <= Nq (length l) * hi.
Proof.
  induction l as [|a l IH]; cbn [qsum length]; intros H.
  - rewrite Nq_0. split; qlra.
  - destruct (H a) as [H1 H2]; [now left|].
    destruct IH as [H3 H4]; [intros; apply H; now right|].
    rewrite Nq_S. split; qnra.
Qed.
Lemma qmean_bounds l lo hi : l <> [] -> (forall x, In x l -> lo <= x /\ x <= hi) ->
  lo <= qmean l /\ qmean l <= hi.
Proof.
  intros N H. unfold qmean.
  assert (P : 0 < Nq (length l)). { apply Nq_pos. destruct l; [contradiction|cbn; lia]. }
  destruct (qsum_bounds l lo hi H) as [A B].
  split.
  - apply qle_div_iff; auto. rewrite Qcmult_comm. exact A.
  - apply qdiv_le_iff; auto. rewrite (Qcmult_comm hi). exact B.
Qed.

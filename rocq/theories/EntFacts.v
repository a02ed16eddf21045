(** The entropy over the real numbers, and how far the computed one is from it. *)
From Coq Require Import List Arith Bool ZArith QArith Qcanon Qreals Reals Lra Lia.
From Verif Require Import Base Num Rng Histogram Utils Criteria Samples Spec EntSpec NumFacts HistFacts HistAdd HistProps CritFacts HistProps2 ListFacts.
Import ListNotations.
Local Open Scope R_scope.

Lemma rtotal_le A (f g : A -> R) l : (forall a, In a l -> f a <= g a) -> rtotal (map f l) <= rtotal (map g l).
Proof. induction l as [|a l IH]; cbn; intros H; [lra|]. specialize (IH (fun b I => H b (or_intror I))). specialize (H a (or_introl eq_refl)). lra. Qed.
Lemma rtotal_ext A (f g : A -> R) l : (forall a, In a l -> f a = g a) -> rtotal (map f l) = rtotal (map g l).
Proof. intros H. apply Rle_antisym; apply rtotal_le; intros a I; rewrite (H a I); lra. Qed.
Lemma rtotal_lt A (f g : A -> R) l b : (forall a, In a l -> f a <= g a) -> In b l -> f b < g b -> rtotal (map f l) < rtotal (map g l).
Proof.
  induction l as [|a l IH]; cbn; intros H I L; [destruct I|]. pose proof (rtotal_le _ f g l (fun c J => H c (or_intror J))) as Q.
  destruct I as [->|I]; [lra|]. specialize (IH (fun c J => H c (or_intror J)) I L). specialize (H a (or_introl eq_refl)). lra.
Qed.
Lemma rtotal_plus A (f g : A -> R) l : rtotal (map (fun a => f a + g a) l) = rtotal (map f l) + rtotal (map g l).
Proof. induction l as [|a l IH]; cbn; [lra|]. rewrite IH. lra. Qed.
Lemma rtotal_scale A (k : R) (f : A -> R) l : rtotal (map (fun a => k * f a) l) = k * rtotal (map f l).
Proof. induction l as [|a l IH]; cbn; [lra|]. rewrite IH. lra. Qed.
Lemma rtotal_const A (k : R) (l : list A) : rtotal (map (fun _ => k) l) = INR (length l) * k.
Proof. induction l as [|a l IH]; [cbn; lra|]. cbn [map rtotal length]. rewrite IH, S_INR. lra. Qed.
Lemma rtotal_INR A (f : A -> nat) l : rtotal (map (fun a => INR (f a)) l) = INR (list_sum (map f l)).
Proof. induction l as [|a l IH]; cbn; [reflexivity|]. rewrite IH, <- plus_INR. reflexivity. Qed.
Lemma rtotal_abs A (f : A -> R) l : Rabs (rtotal (map f l)) <= rtotal (map (fun a => Rabs (f a)) l).
Proof. induction l as [|a l IH]; cbn; [rewrite Rabs_R0; lra|]. eapply Rle_trans; [apply Rabs_triang|]. lra. Qed.

(** ** The inequality behind everything *)
Lemma ln_tangent x : 0 < x -> ln x <= x - 1 /\ (x <> 1 -> ln x < x - 1).
Proof.
  intros H. assert (S : x <> 1 -> ln x < x - 1).
  { intros N. assert (Q : ln x <> 0). { intros Z. apply N. rewrite <- (exp_ln x H), Z. apply exp_0. }
    pose proof (exp_ineq1 (ln x) Q) as E. rewrite exp_ln in E by exact H. lra. }
  split; [|exact S]. destruct (Req_dec x 1) as [->|N]; [rewrite ln_1; lra|]. specialize (S N). lra.
Qed.
Lemma gibbs_term p q : 0 <= p -> 0 <= q -> (0 < p -> 0 < q) -> p * (ln q - ln p) <= q - p /\ (p <> q -> p * (ln q - ln p) < q - p).
Proof.
  intros P Q I. destruct (Rle_lt_or_eq_dec 0 p P) as [L|<-]; [|split; [lra|intros; assert (0 < q) by lra; lra]].
  specialize (I L). assert (E : ln q - ln p = ln (q / p)) by (unfold Rdiv; rewrite ln_mult, ln_Rinv; auto using Rinv_0_lt_compat).
  rewrite E. assert (D : 0 < q / p) by (apply Rdiv_lt_0_compat; assumption). destruct (ln_tangent _ D) as [A B].
  assert (F : p * (q / p - 1) = q - p) by (field; lra). split.
  - rewrite <- F. apply Rmult_le_compat_l; lra.
  - intros N. rewrite <- F. apply Rmult_lt_compat_l; [exact L|]. apply B. intros Z. apply N. apply (f_equal (fun y => y * p)) in Z. unfold Rdiv in Z. rewrite Rmult_assoc, Rinv_l in Z by lra. lra.
Qed.
Lemma gibbs A (l : list A) (p q : A -> R) : (forall a, In a l -> 0 <= p a /\ 0 <= q a /\ (0 < p a -> 0 < q a)) -> rtotal (map p l) = rtotal (map q l) ->
  rtotal (map (fun a => p a * ln (q a)) l) <= rtotal (map (fun a => p a * ln (p a)) l) /\
  (forall b, In b l -> p b <> q b -> rtotal (map (fun a => p a * ln (q a)) l) < rtotal (map (fun a => p a * ln (p a)) l)).
Proof.
  intros H T.
  assert (X : rtotal (map (fun a => q a - p a) l) = 0).
  { transitivity (rtotal (map (fun a => q a + (-1) * p a) l)); [apply rtotal_ext; intros; lra|]. rewrite rtotal_plus, rtotal_scale. lra. }
  assert (Y : rtotal (map (fun a => p a * (ln (q a) - ln (p a))) l) = rtotal (map (fun a => p a * ln (q a)) l) - rtotal (map (fun a => p a * ln (p a)) l)).
  { transitivity (rtotal (map (fun a => p a * ln (q a) + (-1) * (p a * ln (p a))) l)); [apply rtotal_ext; intros; lra|]. rewrite rtotal_plus, rtotal_scale. lra. }
  split.
  - assert (Z : rtotal (map (fun a => p a * (ln (q a) - ln (p a))) l) <= rtotal (map (fun a => q a - p a) l)).
    { apply rtotal_le. intros a I. destruct (H a I) as (A1 & A2 & A3). now apply gibbs_term. }
    lra.
  - intros b I N. assert (Z : rtotal (map (fun a => p a * (ln (q a) - ln (p a))) l) < rtotal (map (fun a => q a - p a) l)).
    { apply (rtotal_lt _ _ _ l b); auto.
      - intros a J. destruct (H a J) as (A1 & A2 & A3). now apply gibbs_term.
      - destruct (H b I) as (A1 & A2 & A3). now apply gibbs_term. }
    lra.
Qed.

(** ** Shares *)
Lemma share_range c n : (c <= n)%nat -> 0 <= share c n <= 1.
Proof.
  intros H. unfold share. destruct n as [|n].
  - assert (c = 0%nat) by lia. subst. cbn. unfold Rdiv. rewrite Rmult_0_l. lra.
  - apply le_INR in H. pose proof (lt_0_INR (S n) ltac:(lia)) as L. pose proof (pos_INR c) as P. split.
    + apply Rmult_le_pos; [exact P|]. left. now apply Rinv_0_lt_compat.
    + apply (Rmult_le_reg_r (INR (S n))); [exact L|]. unfold Rdiv. rewrite Rmult_assoc, Rinv_l; lra.
Qed.
Lemma share_pos c n : (0 < c)%nat -> (0 < n)%nat -> 0 < share c n.
Proof. intros A B. apply lt_0_INR in A, B. now apply Rdiv_lt_0_compat. Qed.
Lemma share_0 n : share 0 n = 0.
Proof. unfold share, Rdiv. cbn. lra. Qed.
Lemma share_self n : (0 < n)%nat -> share n n = 1.
Proof. intros H. apply lt_0_INR in H. unfold share. field. lra. Qed.
Lemma share_inj c d n : (0 < n)%nat -> share c n = share d n -> c = d.
Proof. intros H E. apply lt_0_INR in H. unfold share, Rdiv in E. apply Rmult_eq_reg_r in E; [now apply INR_eq|]. apply Rinv_neq_0_compat. lra. Qed.
Lemma sum_cons (a : nat) l : list_sum (a :: l) = (a + list_sum l)%nat.
Proof. reflexivity. Qed.
Lemma sum_ge (l : list nat) c : In c l -> (c <= list_sum l)%nat.
Proof. induction l as [|a l IH]; intros I; [destruct I|]. change (list_sum (a :: l)) with (a + list_sum l)%nat. destruct I as [->|I]; [lia|]. specialize (IH I). lia. Qed.
Lemma share_total A (f : A -> nat) l n : (0 < n)%nat -> list_sum (map f l) = n -> rtotal (map (fun a => share (f a) n) l) = 1.
Proof.
  intros H E. transitivity (rtotal (map (fun a => / INR n * INR (f a)) l)); [apply rtotal_ext; intros; unfold share, Rdiv; lra|].
  rewrite rtotal_scale, rtotal_INR, E. apply lt_0_INR in H. apply Rinv_l. lra.
Qed.

(** ** Range *)
Lemma plnp p : 0 <= p <= 1 -> p * ln p <= 0 /\ (p * ln p = 0 -> p = 0 \/ p = 1).
Proof.
  intros [A B]. destruct (Rle_lt_or_eq_dec 0 p A) as [L|<-]; [|split; [lra|auto]].
  destruct (ln_tangent p L) as [C D]. split.
  - assert (0 <= p * - ln p) by (apply Rmult_le_pos; lra). lra.
  - intros Z. right. destruct (Req_dec p 1) as [E|N]; [exact E|]. specialize (D N). apply Rmult_integral in Z. lra.
Qed.

Lemma entropy_range counts : (0 < list_sum counts)%nat ->
  0 <= entropy_of counts <= ln (INR (length counts)) /\
  (entropy_of counts = 0 <-> In (list_sum counts) counts) /\
  (entropy_of counts = ln (INR (length counts)) <-> forall c d, In c counts -> In d counts -> c = d).
Proof.
  intros H. set (n := list_sum counts) in *. set (p := fun c => share c n).
  assert (LK : (0 < length counts)%nat) by (destruct counts; [cbn in H; lia|cbn; lia]).
  assert (K : 0 < INR (length counts)) by now apply lt_0_INR.
  assert (IK : 0 < / INR (length counts)) by now apply Rinv_0_lt_compat.
  assert (PR : forall c, In c counts -> 0 <= p c <= 1) by (intros c I; apply share_range, sum_ge, I).
  assert (T1 : rtotal (map p counts) = 1) by (apply (share_total nat (fun c => c) counts n H); now rewrite map_id).
  set (q := fun _ : nat => / INR (length counts)).
  assert (T2 : rtotal (map q counts) = 1) by (unfold q; rewrite rtotal_const; field; lra).
  destruct (gibbs nat counts p q) as [G1 G2].
  { intros c I. destruct (PR c I). unfold q. repeat split; auto; lra. }
  { congruence. }
  assert (LQ : rtotal (map (fun c => p c * ln (q c)) counts) = - ln (INR (length counts))).
  { unfold q. rewrite ln_Rinv by exact K. transitivity (rtotal (map (fun c => - ln (INR (length counts)) * p c) counts)); [apply rtotal_ext; intros; lra|]. rewrite rtotal_scale, T1. lra. }
  assert (EO : entropy_of counts = - rtotal (map (fun c => p c * ln (p c)) counts)) by reflexivity.
  assert (NN : rtotal (map (fun c => p c * ln (p c)) counts) <= rtotal (map (fun _ : nat => 0) counts)).
  { apply rtotal_le. intros c I. now apply plnp, PR. }
  rewrite rtotal_const in NN. repeat split; try lra.
  - intros Z. assert (ALL : forall c, In c counts -> c = 0%nat \/ c = n).
    { intros c I. destruct (Req_dec (p c * ln (p c)) 0) as [E|N].
      - destruct (plnp _ (PR c I)) as [_ X]. destruct (X E) as [X0|X1].
        + left. apply (share_inj _ _ n H). rewrite share_0. exact X0.
        + right. apply (share_inj _ _ n H). rewrite share_self by exact H. exact X1.
      - exfalso. assert (L : rtotal (map (fun c => p c * ln (p c)) counts) < rtotal (map (fun _ : nat => 0) counts)).
        { apply (rtotal_lt _ _ _ _ c); [intros d J; now apply plnp, PR|exact I|]. destruct (plnp _ (PR c I)). lra. }
        rewrite rtotal_const in L. lra. }
    destruct (in_dec Nat.eq_dec n counts) as [I|N]; [exact I|exfalso].
    assert (Z0 : forall l, (forall c, In c l -> c = 0%nat) -> list_sum l = 0%nat).
    { induction l as [|a l IH]; intros X; [reflexivity|]. rewrite sum_cons, (X a (or_introl eq_refl)), IH; [reflexivity|]. intros c I. apply X. now right. }
    unfold n in H. rewrite (Z0 counts) in H; [lia|]. intros c I. destruct (ALL c I) as [->|E]; [reflexivity|]. subst c. contradiction.
  - intros I. assert (ONE : forall c, In c counts -> c = 0%nat \/ c = n).
    { assert (X : forall l m, In m l -> list_sum l = m -> forall c, In c l -> c = 0%nat \/ c = m).
      { induction l as [|a l IH]; intros m J S c Jc; [destruct J|]. rewrite sum_cons in S. destruct J as [->|J].
        - destruct Jc as [->|Jc]; [auto|]. left. pose proof (sum_ge l c Jc). lia.
        - pose proof (sum_ge l m J). destruct Jc as [<-|Jc]; [left; lia|]. apply (IH m); auto. lia. }
      exact (X counts n I eq_refl). }
    rewrite EO. rewrite (rtotal_ext _ _ (fun _ => 0) counts); [rewrite rtotal_const; lra|].
    intros c Ic. destruct (ONE c Ic) as [->|E]; [unfold p; rewrite share_0; lra|]. unfold p. rewrite E, share_self, ln_1 by exact H. lra.
  - intros Z. assert (ALL : forall c, In c counts -> p c = / INR (length counts)).
    { intros c I. destruct (Req_dec (p c) (q c)) as [E|N]; [exact E|]. specialize (G2 c I N). lra. }
    intros c d Ic Id. apply (share_inj _ _ n H). change (p c = p d). rewrite (ALL c Ic), (ALL d Id). reflexivity.
  - intros E. assert (ALL : forall c, In c counts -> p c = / INR (length counts)).
    { intros c I. assert (X : rtotal (map p counts) = INR (length counts) * p c) by (rewrite <- (rtotal_const nat); apply rtotal_ext; intros d J; now rewrite (E c d I J)).
      rewrite T1 in X. apply (Rmult_eq_reg_l (INR (length counts))); [|lra]. rewrite <- X. symmetry. apply Rinv_r. lra. }
    rewrite EO, (rtotal_ext _ _ (fun c => p c * ln (q c)) counts); [rewrite LQ; lra|]. intros c I. rewrite (ALL c I). reflexivity.
Qed.

(** ** Splitting *)
Lemma merged_sum a : forall b, length a = length b -> list_sum (merged a b) = (list_sum a + list_sum b)%nat.
Proof. induction a as [|x a IH]; intros [|y b] L; try discriminate L; [reflexivity|]. injection L as L. specialize (IH b L). change (merged (x :: a) (y :: b)) with ((x + y)%nat :: merged a b). rewrite !sum_cons, IH. lia. Qed.

Lemma entropy_split a b : length a = length b -> (0 < list_sum a)%nat -> (0 < list_sum b)%nat ->
  let n := (list_sum a + list_sum b)%nat in
  share (list_sum a) n * entropy_of a + share (list_sum b) n * entropy_of b <= entropy_of (merged a b) /\
  (share (list_sum a) n * entropy_of a + share (list_sum b) n * entropy_of b = entropy_of (merged a b) <->
   forall i x y, nth_error a i = Some x -> nth_error b i = Some y -> (x * list_sum b = y * list_sum a)%nat).
Proof.
  intros L HA HB n. set (na := list_sum a) in *. set (nb := list_sum b) in *. set (l := combine a b).
  assert (HN : (0 < n)%nat) by lia.
  set (p := fun ab : nat * nat => share (fst ab) na). set (q := fun ab : nat * nat => share (snd ab) nb). set (m := fun ab : nat * nat => share (fst ab + snd ab) n).
  assert (FA : forall g : nat -> R, rtotal (map g a) = rtotal (map (fun ab => g (fst ab)) l)).
  { intros g. unfold l. rewrite <- (map_map fst g). f_equal. f_equal. clear - L. revert b L. induction a as [|x a IH]; intros [|y b] L; cbn in *; try lia; [reflexivity|]. rewrite <- IH by lia. reflexivity. }
  assert (FB : forall g : nat -> R, rtotal (map g b) = rtotal (map (fun ab => g (snd ab)) l)).
  { intros g. unfold l. rewrite <- (map_map snd g). f_equal. f_equal. clear - L. revert a L. induction b as [|y b IH]; intros [|x a] L; cbn in *; try lia; [reflexivity|]. rewrite <- IH by lia. reflexivity. }
  assert (EA : entropy_of a = - rtotal (map (fun ab => p ab * ln (p ab)) l)) by (unfold entropy_of; f_equal; apply (FA (fun c => share c na * ln (share c na)))).
  assert (EB : entropy_of b = - rtotal (map (fun ab => q ab * ln (q ab)) l)) by (unfold entropy_of; f_equal; apply (FB (fun c => share c nb * ln (share c nb)))).
  assert (EM : entropy_of (merged a b) = - rtotal (map (fun ab => m ab * ln (m ab)) l)).
  { unfold entropy_of. rewrite (merged_sum a b L). fold na nb n. unfold merged. rewrite map_map. reflexivity. }
  assert (MA : forall x y, INR (x + y) = INR x + INR y) by (intros; apply plus_INR).
  assert (RA : 0 < INR na) by now apply lt_0_INR. assert (RB : 0 < INR nb) by now apply lt_0_INR.
  assert (RN : INR n = INR na + INR nb) by apply plus_INR.
  set (wa := share na n). set (wb := share nb n).
  assert (WM : forall ab, m ab = wa * p ab + wb * q ab).
  { intros [x y]. unfold m, p, q, wa, wb, share. cbn [fst snd]. rewrite plus_INR, RN. field. lra. }
  assert (WA : 0 < wa) by now apply share_pos. assert (WB : 0 < wb) by now apply share_pos.
  assert (PP : forall ab, In ab l -> 0 <= p ab <= 1 /\ 0 <= q ab <= 1).
  { intros [x y] I. split; apply share_range, sum_ge; [exact (in_combine_l _ _ _ _ I)|exact (in_combine_r _ _ _ _ I)]. }
  assert (TP : rtotal (map p l) = 1) by (unfold p; rewrite <- (FA (fun c => share c na)); apply (share_total nat (fun c => c) a na HA); now rewrite map_id).
  assert (TQ : rtotal (map q l) = 1) by (unfold q; rewrite <- (FB (fun c => share c nb)); apply (share_total nat (fun c => c) b nb HB); now rewrite map_id).
  assert (W1 : wa + wb = 1) by (unfold wa, wb, share; rewrite RN; field; lra).
  assert (TM : rtotal (map m l) = 1).
  { transitivity (rtotal (map (fun ab => wa * p ab + wb * q ab) l)); [apply rtotal_ext; intros; apply WM|]. rewrite rtotal_plus, !rtotal_scale, TP, TQ. lra. }
  destruct (gibbs _ l p m) as [GA GA']; [|congruence|].
  { intros ab I. destruct (PP ab I) as [[A1 _] [A2 _]]. rewrite WM. assert (0 <= wa * p ab) by (apply Rmult_le_pos; lra). assert (0 <= wb * q ab) by (apply Rmult_le_pos; lra).
    repeat split; [exact A1|lra|]. intros P. assert (0 < wa * p ab) by (apply Rmult_lt_0_compat; lra). lra. }
  destruct (gibbs _ l q m) as [GB GB']; [|congruence|].
  { intros ab I. destruct (PP ab I) as [[A1 _] [A2 _]]. rewrite WM. assert (0 <= wa * p ab) by (apply Rmult_le_pos; lra). assert (0 <= wb * q ab) by (apply Rmult_le_pos; lra).
    repeat split; [exact A2|lra|]. intros P. assert (0 < wb * q ab) by (apply Rmult_lt_0_compat; lra). lra. }
  assert (MIX : rtotal (map (fun ab => m ab * ln (m ab)) l) = wa * rtotal (map (fun ab => p ab * ln (m ab)) l) + wb * rtotal (map (fun ab => q ab * ln (m ab)) l)).
  { rewrite <- !rtotal_scale, <- rtotal_plus. apply rtotal_ext. intros ab _. rewrite (WM ab) at 1. ring. }
  rewrite EA, EB, EM, MIX.
  set (sp := rtotal (map (fun ab => p ab * ln (p ab)) l)) in *. set (sq := rtotal (map (fun ab => q ab * ln (q ab)) l)) in *.
  set (sm1 := rtotal (map (fun ab => p ab * ln (m ab)) l)) in *. set (sm2 := rtotal (map (fun ab => q ab * ln (m ab)) l)) in *.
  assert (IA : wa * sm1 <= wa * sp) by (apply Rmult_le_compat_l; lra). assert (IB : wb * sm2 <= wb * sq) by (apply Rmult_le_compat_l; lra).
  split; [lra|]. split.
  - intros E i x y Ex Ey. assert (I : In (x, y) l).
    { unfold l. clear - Ex Ey. revert b i Ex Ey. induction a as [|u a IH]; intros [|v b] [|i] Ex Ey; cbn in *; try discriminate; [injection Ex as ->; injection Ey as ->; now left|right; eauto]. }
    destruct (Req_dec (p (x, y)) (m (x, y))) as [Q|N].
    + rewrite WM in Q. assert (Z : p (x, y) = q (x, y)) by (apply (Rmult_eq_reg_l wb); [|lra]; replace (wb * p (x, y)) with (p (x, y) - wa * p (x, y)) by (replace wb with (1 - wa) by lra; ring); lra).
      unfold p, q, share in Z. cbn [fst snd] in Z. apply INR_eq. rewrite !mult_INR. apply (f_equal (fun t => t * (INR na * INR nb))) in Z. field_simplify in Z; lra.
    + specialize (GA' _ I N). assert (wa * sm1 < wa * sp) by (apply Rmult_lt_compat_l; lra). lra.
  - intros E. assert (SAME : forall ab, In ab l -> p ab = m ab /\ q ab = m ab).
    { intros [x y] I. unfold l in I. apply In_nth_error in I. destruct I as [i I].
      assert (X : nth_error a i = Some x /\ nth_error b i = Some y).
      { clear - I. revert b i I. induction a as [|u a IH]; intros [|v b] [|i] I; cbn in *; try discriminate; [injection I as -> ->; auto|eauto]. }
      destruct X as [Ex Ey]. specialize (E i x y Ex Ey). apply (f_equal INR) in E. rewrite !mult_INR in E. fold na nb in E.
      assert (Z : p (x, y) = q (x, y)). { unfold p, q, share. cbn [fst snd]. apply (Rmult_eq_reg_r (INR na * INR nb)); [|apply Rgt_not_eq, Rmult_lt_0_compat; lra]. field_simplify; lra. }
      rewrite WM, <- Z. replace wb with (1 - wa) by lra. split; ring. }
    assert (S1 : sm1 = sp) by (unfold sm1, sp; apply rtotal_ext; intros ab I; destruct (SAME ab I) as [-> _]; reflexivity).
    assert (S2 : sm2 = sq) by (unfold sm2, sq; apply rtotal_ext; intros ab I; destruct (SAME ab I) as [_ ->]; reflexivity).
    rewrite S1, S2. lra.
Qed.

(** ** From the rationals of the code to the reals *)
Lemma real_plus a b : real (a + b)%Qc = real a + real b.
Proof. change (Q2R (Qred (this a + this b)) = Q2R a + Q2R b). rewrite (Qeq_eqR _ _ (Qred_correct _)). apply Q2R_plus. Qed.
Lemma real_mult a b : real (a * b)%Qc = real a * real b.
Proof. change (Q2R (Qred (this a * this b)) = Q2R a * Q2R b). rewrite (Qeq_eqR _ _ (Qred_correct _)). apply Q2R_mult. Qed.
Lemma real_opp a : real (- a)%Qc = - real a.
Proof. change (Q2R (Qred (- this a)) = - Q2R a). rewrite (Qeq_eqR _ _ (Qred_correct _)). apply Q2R_opp. Qed.
Lemma real_minus a b : real (a - b)%Qc = real a - real b.
Proof. unfold Qcminus. rewrite real_plus, real_opp. lra. Qed.
Lemma real_0 : real 0%Qc = 0.
Proof. unfold real. cbn. unfold Q2R. cbn. lra. Qed.
Lemma real_rat n : real (rat n) = INR n.
Proof. unfold real, rat. cbn [this Q2Qc]. rewrite (Qeq_eqR _ _ (Qred_correct _)). unfold Q2R, inject_Z. cbn [Qnum Qden]. rewrite <- INR_IZR_INZ. cbn. field. Qed.
Lemma real_inv a : a <> 0%Qc -> real (/ a)%Qc = / real a.
Proof.
  intros N. change (Q2R (Qred (/ this a)) = / Q2R a). rewrite (Qeq_eqR _ _ (Qred_correct _)). apply Q2R_inv. intros Z. apply N. apply Qc_is_canon. exact Z.
Qed.
Lemma real_share c n : (0 < n)%nat -> real (rat c / rat n)%Qc = share c n.
Proof.
  intros H. unfold Qcdiv. rewrite real_mult, real_inv, !real_rat; [reflexivity|]. intros Z. apply (f_equal real) in Z. rewrite real_rat, real_0 in Z. apply lt_0_INR in H. lra.
Qed.
Lemma real_total l : real (total l) = rtotal (map real l).
Proof. induction l as [|a l IH]; cbn [total map rtotal]; [apply real_0|]. rewrite real_plus, IH. reflexivity. Qed.
Lemma real_lt a b : (a < b)%Qc <-> real a < real b.
Proof. split; [apply Qlt_Rlt|apply Rlt_Qlt]. Qed.
Lemma real_le a b : (a <= b)%Qc <-> real a <= real b.
Proof. split; [apply Qle_Rle|apply Rle_Qle]. Qed.
Lemma real_1 : real 1%Qc = 1.
Proof. change 1%Qc with (rat 1). apply real_rat. Qed.

Lemma log_error log eps c n : log_within log eps -> (0 < n)%nat -> (c <= n)%nat -> (0 < c)%nat ->
  Rabs (real (log (rat c / rat n)%Qc) - ln (share c n)) <= eps.
Proof.
  intros [_ H] N L C. rewrite <- (real_share c n N). apply H.
  - apply real_lt. rewrite real_0, real_share by exact N. now apply share_pos.
  - apply real_le. rewrite real_1, real_share by exact N. now apply share_range.
Qed.
Lemma term_error log eps c n (x : Qc) : log_within log eps -> (0 < n)%nat -> (c <= n)%nat -> (c = 0%nat \/ x = log (rat c / rat n)%Qc) ->
  Rabs (real (- x * (rat c / rat n))%Qc - - (share c n * ln (share c n))) <= eps * share c n.
Proof.
  intros G N L [->|X].
  - rewrite real_mult, real_share, share_0 by exact N. replace (real (- x) * 0 - - (0 * ln 0)) with 0 by ring. rewrite Rabs_R0. lra.
  - destruct (Nat.eq_dec c 0) as [->|C].
    { rewrite real_mult, real_share, share_0 by exact N. replace (real (- x) * 0 - - (0 * ln 0)) with 0 by ring. rewrite Rabs_R0. lra. }
    subst x. pose proof (log_error log eps c n G N L ltac:(lia)) as E. rewrite real_mult, real_opp, real_share by exact N.
    replace (- real (log (rat c / rat n)%Qc) * share c n - - (share c n * ln (share c n))) with (- (real (log (rat c / rat n)%Qc) - ln (share c n)) * share c n) by ring.
    rewrite Rabs_mult, Rabs_Ropp. destruct (share_range c n L) as [S _]. rewrite (Rabs_right (share c n)) by lra. now apply Rmult_le_compat_r.
Qed.

Lemma sum_error A (l : list A) (f g : A -> R) (h : A -> R) eps : (forall a, In a l -> Rabs (f a - - g a) <= eps * h a) -> rtotal (map h l) = 1 ->
  Rabs (rtotal (map f l) - - rtotal (map g l)) <= eps.
Proof.
  intros H T. replace (rtotal (map f l) - - rtotal (map g l)) with (rtotal (map (fun a => f a - - g a) l)).
  - eapply Rle_trans; [apply rtotal_abs|]. replace eps with (eps * rtotal (map h l)) by (rewrite T; ring). rewrite <- rtotal_scale. now apply rtotal_le.
  - transitivity (rtotal (map (fun a => f a + g a) l)); [apply rtotal_ext; intros; ring|]. rewrite rtotal_plus. ring.
Qed.

Lemma entropy_value_error M counts eps : log_within (m_log M) eps -> (0 < list_sum counts)%nat -> Rabs (real (entropy_value M counts None) - entropy_of counts) <= eps.
Proof.
  intros G H. unfold entropy_value, entropy_of, class_probs, opt_n. change (sum_nat counts) with (list_sum counts). set (n := list_sum counts) in *.
  change qsum with total. rewrite real_total, !map_map.
  apply (sum_error nat counts _ _ (fun c => share c n)); [|apply (share_total nat (fun c => c)); [exact H|now rewrite map_id]].
  intros c I. pose proof (sum_ge _ _ I) as L. fold n in L.
  assert (X : nan_to_num (xdiv (Fin (Nq c)) (Fin (Nq n))) = (rat c / rat n)%Qc).
  { cbn. destruct (qeq (Nq n) 0) eqn:E; [|reflexivity]. apply qeq_spec in E. rewrite <- Nq_0 in E. apply Nq_inj in E. lia. }
  rewrite X. apply (term_error (m_log M)); auto. destruct (Nat.eq_dec c 0) as [->|C]; [now left|right]. unfold xlog.
  assert (P : (0 < rat c / rat n)%Qc) by (apply real_lt; rewrite real_0, real_share by exact H; apply share_pos; lia).
  assert (Q1 : qlt (rat c / rat n) 0 = false) by (apply qlt_false; apply Qclt_le_weak; exact P). rewrite Q1.
  assert (Q2 : qeq (rat c / rat n) 0 = false) by (apply NumFacts.qeq_false; intros Z; rewrite Z in P; now apply qlt_irrefl in P). rewrite Q2. reflexivity.
Qed.

Lemma nodup_total (ls : list Qc) : ls <> [] -> rtotal (map (fun c => share (occurrences c ls) (length ls)) (nodup Qc_eq_dec ls)) = 1.
Proof.
  intros N. apply share_total; [destruct ls; [contradiction|cbn; lia]|].
  rewrite <- (sum_class_counts (nodup Qc_eq_dec ls) ls); [reflexivity|apply NoDup_nodup|]. intros x I. now apply nodup_In.
Qed.
Lemma entropy_error log ls eps : log_within log eps -> Rabs (real (entropy log ls) - label_entropy ls) <= eps.
Proof.
  intros G. destruct ls as [|l0 lt] eqn:E.
  - change (Rabs (real 0%Qc - - 0) <= eps). rewrite real_0. replace (0 - - 0) with 0 by ring. rewrite Rabs_R0. apply G.
  - rewrite <- E. assert (N : ls <> []) by (rewrite E; discriminate). clear l0 lt E.
    unfold entropy, label_entropy. rewrite real_total, map_map. apply (sum_error _ _ _ _ (fun c => share (occurrences c ls) (length ls))); [|now apply nodup_total].
    intros c I. unfold fraction. apply (term_error log); auto; [destruct ls; [contradiction|cbn; lia]|apply count_occ_bound].
Qed.

(** ** Splits of a table *)
Lemma counts_entropy cl ls : NoDup cl -> incl ls cl -> ls <> [] -> label_entropy ls = entropy_of (class_counts cl ls).
Proof.
  intros ND I NE. unfold label_entropy, entropy_of. f_equal. change (list_sum (class_counts cl ls)) with (sum_nat (class_counts cl ls)). rewrite sum_class_counts by assumption.
  unfold class_counts. rewrite map_map. set (g := fun c => share (occurrences c ls) (length ls) * ln (share (occurrences c ls) (length ls))).
  assert (Z : forall c, ~ In c ls -> g c = 0). { intros c N. unfold g, occurrences. rewrite (proj1 (count_occ_not_In _ _ _) N), share_0. ring. }
  assert (NN : NoDup (nodup Qc_eq_dec ls)) by apply NoDup_nodup. assert (IN : incl (nodup Qc_eq_dec ls) cl) by (intros c J; apply nodup_In in J; auto).
  assert (REST : forall c, In c cl -> ~ In c (nodup Qc_eq_dec ls) -> g c = 0) by (intros c _ J; apply Z; intros K; apply J; now apply nodup_In).
  revert NN IN REST. generalize (nodup Qc_eq_dec ls) as u. clearbody g. clear - ND. intros u. revert cl ND. 
  induction u as [|x u IH]; intros cl ND NN IN REST.
  - cbn. clear - REST. induction cl as [|c cl IH]; [reflexivity|]. cbn. rewrite (REST c (or_introl eq_refl) (fun f => f)), <- IH; [ring|]. intros d I. apply REST. now right.
  - destruct (in_split x cl (IN x (or_introl eq_refl))) as (c1 & c2 & ->). apply NoDup_cons_iff in NN. destruct NN as [NX NN].
    pose proof (NoDup_remove_2 _ _ _ ND) as NI. apply NoDup_remove_1 in ND.
    assert (SP : forall a b, rtotal (map g (a ++ b)) = rtotal (map g a) + rtotal (map g b)) by (induction a as [|y a IHa]; intros b; cbn; [ring|rewrite IHa; ring]).
    cbn [map rtotal]. rewrite (IH (c1 ++ c2) ND NN).
    + rewrite !SP. cbn [map rtotal]. ring.
    + intros y J. assert (K := IN y (or_intror J)). apply in_app_iff in K. apply in_app_iff. destruct K as [K|[K|K]]; auto. subst y. contradiction.
    + intros y J K. apply REST; [apply in_app_iff in J; apply in_app_iff; cbn; tauto|]. intros [->|L]; contradiction.
Qed.

Lemma change_nonpos T f v : T <> [] -> entropy_change T f v <= 0.
Proof.
  intros NT. unfold entropy_change. set (L := left_part f v T). set (G := right_part f v T).
  pose proof (parts_length f v T) as PL. fold L G in PL. rewrite !labels_length.
  assert (HN : (0 < length T)%nat) by (destruct T; [contradiction|cbn; lia]).
  assert (EQ : forall ls, (forall c, occurrences c ls = occurrences c (labels_of T)) -> label_entropy ls = label_entropy (labels_of T)).
  { intros ls E. assert (NE : ls <> []). { intros ->. destruct T as [|r T']; [contradiction|]. specialize (E (snd r)). cbn in E. destruct (Qc_eq_dec (snd r) (snd r)); [discriminate E|contradiction]. }
    assert (NE2 : labels_of T <> []) by (destruct T; [contradiction|discriminate]).
    set (cl := nodup Qc_eq_dec (labels_of T)). rewrite (counts_entropy cl ls), (counts_entropy cl (labels_of T)); auto; try apply NoDup_nodup.
    - unfold class_counts. f_equal. apply map_ext. exact E.
    - intros c I. now apply nodup_In.
    - intros c I. apply nodup_In. apply (count_occ_In Qc_eq_dec). unfold occurrences in E. rewrite <- E. now apply count_occ_In. }
  pose proof (fun c => parts_occurrences c f v T) as PO. fold L G in PO.
  destruct (Nat.eq_dec (length L) 0) as [ZL|NL].
  { assert (L = []) by (destruct L; [reflexivity|discriminate ZL]). rewrite ZL, share_0. replace (length G) with (length T) by lia. rewrite share_self by exact HN.
    rewrite (EQ (labels_of G)); [lra|]. intros c. rewrite PO, H. reflexivity. }
  destruct (Nat.eq_dec (length G) 0) as [ZG|NG].
  { assert (G = []) by (destruct G; [reflexivity|discriminate ZG]). rewrite ZG, share_0. replace (length L) with (length T) by lia. rewrite share_self by exact HN.
    rewrite (EQ (labels_of L)); [lra|]. intros c. rewrite PO, H. cbn. lia. }
  set (cl := nodup Qc_eq_dec (labels_of T)). assert (ND : NoDup cl) by apply NoDup_nodup.
  assert (IT : incl (labels_of T) cl) by (intros c I; now apply nodup_In).
  assert (IL : incl (labels_of L) cl) by (eapply incl_tran; [apply left_part_incl|exact IT]). assert (IG : incl (labels_of G) cl) by (eapply incl_tran; [apply right_part_incl|exact IT]).
  assert (SL : list_sum (class_counts cl (labels_of L)) = length L) by (rewrite <- (labels_length L); now apply sum_class_counts).
  assert (SG : list_sum (class_counts cl (labels_of G)) = length G) by (rewrite <- (labels_length G); now apply sum_class_counts).
  assert (NE : forall X : table, length X <> 0%nat -> labels_of X <> []) by (intros [|r X] Q; [contradiction|discriminate]).
  rewrite (counts_entropy cl (labels_of L)), (counts_entropy cl (labels_of G)), (counts_entropy cl (labels_of T)) by (auto || (apply NE; lia)).
  destruct (entropy_split (class_counts cl (labels_of L)) (class_counts cl (labels_of G))) as [X _].
  { unfold class_counts. now rewrite !map_length. }
  { rewrite SL. lia. } { rewrite SG. lia. }
  unfold merged in X. rewrite (combine_counts cl _ _ (labels_of T) PO), SL, SG, PL in X. lra.
Qed.

Lemma reduction_error log T f v eps : log_within log eps -> T <> [] -> Rabs (real (reduction (entropy log) T f v) - entropy_change T f v) <= 2 * eps.
Proof.
  intros G NT. unfold reduction, entropy_change. cbv zeta. set (L := labels_of (left_part f v T)). set (R' := labels_of (right_part f v T)).
  assert (HN : (0 < length T)%nat) by (destruct T; [contradiction|cbn; lia]).
  rewrite real_minus, real_plus, !real_mult, !real_share by exact HN.
  pose proof (parts_length f v T) as PL. unfold L, R'. rewrite !labels_length. fold L R'.
  set (wl := share (length (left_part f v T)) (length T)). set (wr := share (length (right_part f v T)) (length T)).
  assert (W : wl + wr = 1). { unfold wl, wr, share. rewrite <- PL, plus_INR. apply lt_0_INR in HN. rewrite <- PL, plus_INR in HN. field. lra. }
  assert (WL : 0 <= wl) by (apply share_range; lia). assert (WR : 0 <= wr) by (apply share_range; lia).
  pose proof (entropy_error log L eps G) as E1. pose proof (entropy_error log R' eps G) as E2. pose proof (entropy_error log (labels_of T) eps G) as E3.
  set (a := real (entropy log L)) in *. set (b := real (entropy log R')) in *. set (c := real (entropy log (labels_of T))) in *.
  set (a' := label_entropy L) in *. set (b' := label_entropy R') in *. set (c' := label_entropy (labels_of T)) in *.
  replace (wl * a + wr * b - c - (wl * a' + wr * b' - c')) with ((wl * (a - a') + wr * (b - b')) + - (c - c')) by ring.
  eapply Rle_trans; [apply Rabs_triang|]. rewrite Rabs_Ropp.
  assert (X : Rabs (wl * (a - a') + wr * (b - b')) <= eps); [|lra].
  eapply Rle_trans; [apply Rabs_triang|]. rewrite !Rabs_mult, (Rabs_right wl), (Rabs_right wr) by lra.
  replace eps with (wl * eps + wr * eps) by (rewrite <- Rmult_plus_distr_r, W; ring).
  apply Rplus_le_compat; now apply Rmult_le_compat_l.
Qed.

(** ** A logarithm as close as wanted *)
Definition grid_log (k : nat) (q : Qc) : Qc := (Zq (up (ln (real q) * INR (S k))) / rat (S k))%Qc.
Lemma real_Zq z : real (Zq z) = IZR z.
Proof. unfold real, Zq. cbn [this Q2Qc]. rewrite (Qeq_eqR _ _ (Qred_correct _)). unfold Q2R, inject_Z. cbn [Qnum Qden]. field. Qed.
Lemma grid_log_within k : log_within (grid_log k) (/ INR (S k)).
Proof.
  pose proof (lt_0_INR (S k) ltac:(lia)) as P. split; [left; now apply Rinv_0_lt_compat|]. intros q _ _. unfold grid_log, Qcdiv.
  rewrite real_mult, real_Zq, real_inv, real_rat.
  - set (x := ln (real q)). set (n := INR (S k)) in *. destruct (archimed (x * n)) as [A B].
    assert (PN : 0 < / n) by now apply Rinv_0_lt_compat.
    assert (E : IZR (up (x * n)) * / n - x = (IZR (up (x * n)) - x * n) * / n) by (field; lra).
    rewrite E, Rabs_right.
    + rewrite <- (Rmult_1_l (/ n)) at 2. apply Rmult_le_compat_r; lra.
    + apply Rle_ge, Rmult_le_pos; lra.
  - intros Z. apply (f_equal real) in Z. rewrite real_rat, real_0 in Z. lra.
Qed.

(** ** What the code reports *)
Lemma computed_entropy M counts eps : log_within (m_log M) eps -> (0 < list_sum counts)%nat ->
  let E := real (entropy_value M counts None) in
  Rabs (E - entropy_of counts) <= eps /\ - eps <= E <= ln (INR (length counts)) + eps.
Proof.
  intros G H E. pose proof (entropy_value_error M counts eps G H) as X. fold E in X. split; [exact X|].
  destruct (entropy_range counts H) as [[A B] _]. unfold Rabs in X. destruct (Rcase_abs (E - entropy_of counts)); lra.
Qed.

Lemma total_nonneg l : (forall x, In x l -> (0 <= x)%Qc) -> (0 <= total l)%Qc.
Proof.
  induction l as [|a l IH]; cbn [total]; intros H; [apply Qcle_refl|]. apply real_le. rewrite real_0, real_plus.
  pose proof (proj1 (real_le _ _) (H a (or_introl eq_refl))) as X. pose proof (proj1 (real_le _ _) (IH (fun x I => H x (or_intror I)))) as Y. rewrite real_0 in X, Y. lra.
Qed.
Lemma probs_are counts c : (0 < list_sum counts)%nat -> nan_to_num (xdiv (Fin (Nq c)) (Fin (Nq (sum_nat counts)))) = (rat c / rat (list_sum counts))%Qc.
Proof.
  intros H. cbn. change (sum_nat counts) with (list_sum counts). destruct (qeq (Nq (list_sum counts)) 0) eqn:E; [|reflexivity].
  apply qeq_spec in E. rewrite <- Nq_0 in E. apply Nq_inj in E. lia.
Qed.
(** A logarithm that is not positive on (0,1] and vanishes at 1, as the floating point one. *)
Lemma computed_sign M counts : (forall q, (0 < q)%Qc -> (q <= 1)%Qc -> (m_log M q <= 0)%Qc) -> (0 < list_sum counts)%nat -> (0 <= entropy_value M counts None)%Qc.
Proof.
  intros G H. unfold entropy_value, class_probs, opt_n. change qsum with total. rewrite map_map. apply total_nonneg. intros x I.
  apply in_map_iff in I. destruct I as (c & <- & I). rewrite probs_are by exact H. pose proof (sum_ge _ _ I) as L. set (n := list_sum counts) in *.
  apply real_le. rewrite real_0, real_mult, real_opp, real_share by exact H. destruct (share_range c n L) as [S1 S2].
  apply Rmult_le_pos; [|exact S1]. destruct (Nat.eq_dec c 0) as [->|C].
  - unfold xlog. replace (rat 0 / rat n)%Qc with 0%Qc by (cbn; apply Qc_is_canon; cbn; reflexivity). cbn. rewrite real_0. lra.
  - assert (P : (0 < rat c / rat n)%Qc) by (apply real_lt; rewrite real_0, real_share by exact H; apply share_pos; lia).
    assert (P1 : (rat c / rat n <= 1)%Qc) by (apply real_le; rewrite real_1, real_share by exact H; exact S2).
    unfold xlog. assert (Q1 : qlt (rat c / rat n) 0 = false) by (apply qlt_false; apply Qclt_le_weak; exact P). rewrite Q1.
    assert (Q2 : qeq (rat c / rat n) 0 = false) by (apply NumFacts.qeq_false; intros Z; rewrite Z in P; now apply qlt_irrefl in P). rewrite Q2.
    pose proof (proj1 (real_le _ _) (G _ P P1)) as X. rewrite real_0 in X. change (0 <= - real (m_log M (rat c / rat n)%Qc)). lra.
Qed.
Lemma computed_pure M counts : m_log M 1%Qc = 0%Qc -> (0 < list_sum counts)%nat -> In (list_sum counts) counts -> entropy_value M counts None = 0%Qc.
Proof.
  intros G H I. unfold entropy_value, class_probs, opt_n. change qsum with total. rewrite map_map. set (n := list_sum counts) in *.
  assert (ONE : forall c, In c counts -> c = 0%nat \/ c = n).
  { assert (X : forall l m, In m l -> list_sum l = m -> forall c, In c l -> c = 0%nat \/ c = m).
    { induction l as [|a l IH]; intros m J S c Jc; [destruct J|]. rewrite sum_cons in S. destruct J as [->|J].
      - destruct Jc as [->|Jc]; [auto|]. left. pose proof (sum_ge l c Jc). lia.
      - pose proof (sum_ge l m J). destruct Jc as [<-|Jc]; [left; lia|]. apply (IH m); auto. lia. }
    exact (X counts n I eq_refl). }
  assert (Z : forall l, (forall x, In x l -> x = 0%Qc) -> total l = 0%Qc) by (induction l as [|a l IH]; cbn; intros Q; [reflexivity|]; rewrite (Q a (or_introl eq_refl)), IH; [ring|auto]).
  apply Z. intros x J. apply in_map_iff in J. destruct J as (c & <- & J). rewrite probs_are by exact H. fold n. destruct (ONE c J) as [->|E].
  - replace (rat 0 / rat n)%Qc with 0%Qc by (cbn; apply Qc_is_canon; cbn; reflexivity). cbn. ring.
  - rewrite E. assert (NN : rat n <> 0%Qc) by (intros Q; apply (f_equal real) in Q; rewrite real_rat, real_0 in Q; apply lt_0_INR in H; lra).
    replace (rat n / rat n)%Qc with 1%Qc by (field; exact NN). unfold xlog. change (qlt 1 0) with false. change (qeq 1 0) with false. cbn [nan_to_num]. rewrite G. ring.
Qed.

Lemma value_gini counts pop n : (forall g v, get_gini counts pop n = Ok (g, v) -> g = gini_value counts n) /\ (counts <> [] -> exists v, get_gini counts pop n = Ok (gini_value counts n, v)).
Proof.
  unfold get_gini, gini_value. split.
  - intros g v H. destruct (class_probs counts (opt_n n counts)) eqn:E; [discriminate H|]. rewrite <- E in *. apply ok_pair_inv in H. destruct H as [<- _]. reflexivity.
  - intros N. destruct counts as [|c l]; [contradiction|]. cbn [class_probs map]. eauto.
Qed.
Lemma value_entropy M counts pop n : (forall g v, get_entropy M counts pop n = Ok (g, v) -> g = entropy_value M counts n).
Proof.
  unfold get_entropy, entropy_value. intros g v H. set (p := class_probs counts (opt_n n counts)) in *.
  assert (E : map (fun xl => (- snd xl * fst xl)%Qc) (combine p (map (fun x => nan_to_num (xlog M x)) p)) = map (fun x => (- nan_to_num (xlog M x) * x)%Qc) p).
  { clear. induction p as [|a p IH]; cbn; [reflexivity|]. now rewrite IH. }
  rewrite E in H. destruct p as [|p0 [|p1 [|p2 q]]]; cbn [map] in H; try discriminate H; apply ok_pair_inv in H; destruct H as [<- _]; reflexivity.
Qed.

Lemma reported_entropy f uf fd cl nb mn mx ty t h0 t' edges batches h M bins pop irs vs i b e ir eps :
  new_hist true f uf fd cl nb mn mx ty t = Ok (h0, t') -> good_bins ty nb mn mx uf -> NoDup cl ->
  h_edges h0 = Some edges -> add_all h0 batches = Ok h ->
  let T := rows_of batches in
  get_impurity_reductions M ENTROPY h bins pop = Ok (irs, vs) ->
  nth_error bins i = Some b -> nth_error edges b = Some e -> nth_error irs i = Some ir ->
  log_within (m_log M) eps ->
  Rabs (real ir - entropy_change T f e) <= 2 * eps /\ entropy_change T f e <= 0 /\ real ir <= 2 * eps.
Proof.
  intros H G ND E HA T HR Hb He Hi LW.
  destruct (built_class _ _ _ _ _ _ _ _ _ _ _ _ _ _ H G ND E HA) as [C [F [CL [CI IN]]]]. fold T in CI, IN.
  rewrite <- CL in ND, IN.
  assert (NT := class_rows_nonempty _ _ _ _ _ _ _ _ _ _ _ C CI ND IN HR Hb).
  destruct (class_reductions_spec _ _ _ _ _ _ _ _ _ C CI ND IN HR) as [_ [_ K]].
  destruct (K i b ir Hb Hi) as [e' [Ee Er]]. rewrite He in Ee. injection Ee as <-. rewrite F in Er. cbn [class_imp] in Er.
  pose proof (reduction_error (m_log M) T f e eps LW NT) as X. rewrite <- Er in X. pose proof (change_nonpos T f e NT) as Y.
  split; [exact X|]. split; [exact Y|]. unfold Rabs in X. destruct (Rcase_abs (real ir - entropy_change T f e)); lra.
Qed.
Lemma gini_value_labels cl ls : NoDup cl -> incl ls cl -> cl <> [] -> gini_value (map (fun c => occurrences c ls) cl) (Some (length ls)) = gini ls.
Proof.
  intros ND I NE. destruct (value_gini (class_counts cl ls) None (Some (length ls))) as [_ V].
  destruct V as [v V]; [unfold class_counts; destruct cl; [contradiction|discriminate]|]. symmetry. symmetry. exact (get_gini_counts cl ls None _ _ ND I V).
Qed.
Lemma entropy_value_labels M cl ls : NoDup cl -> incl ls cl -> entropy_value M (map (fun c => occurrences c ls) cl) (Some (length ls)) = entropy (m_log M) ls.
Proof.
  intros ND I. unfold entropy_value, opt_n. change (map (fun c => occurrences c ls) cl) with (class_counts cl ls). rewrite class_probs_fraction, (entropy_classes _ cl), map_map by assumption.
  apply qsum_map_ext. intros c _. unfold xlog. destruct (fraction_range c ls) as [F _]. apply qlt_false in F. rewrite F.
  destruct (qeq (fraction c ls) 0) eqn:Z; [|reflexivity]. apply qeq_spec in Z. rewrite Z. cbn. ring.
Qed.

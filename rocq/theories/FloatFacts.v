(** * Proofs about LINEAR bins in IEEE double arithmetic *)
From Coq Require Import ZArith Reals Bool Lia Lra Psatz.
From Flocq Require Import Core.
From Flocq Require Import IEEE754.BinarySingleNaN Relative Plus_error.
From Verif Require Import FloatBin FloatSpec.
Local Open Scope R_scope.

Notation rnd := (round radix2 (SpecFloat.fexp 53 1024) ZnearestE).
Lemma fexp_flt : SpecFloat.fexp 53 1024 = FLT_exp (-1074) 53.
Proof. reflexivity. Qed.

Lemma val_format x : generic_format radix2 (FLT_exp (-1074) 53) (val x).
Proof. apply (generic_format_B2R 53 1024 x). Qed.

Lemma val_bound x : Rabs (val x) < bpow radix2 1024.
Proof. apply (abs_B2R_lt_emax 53 1024). Qed.

Definition huge : R := bpow radix2 1024.

Lemma over_inf s : binary_overflow 53 1024 mode_NE s = SpecFloat.S754_infinity s.
Proof. reflexivity. Qed.
Lemma inf_of (x : f64) s : B2SF x = SpecFloat.S754_infinity s -> x = B754_infinity s.
Proof. destruct x as [b|b| |b m e H]; cbn; intro E; try discriminate. congruence. Qed.

Lemma sign_neg (z : f64) : Bsign z = true -> val z <= 0.
Proof.
  unfold val. destruct z as [b|b| |b m e H']; cbn; intro; try lra. subst b. cbn. apply F2R_le_0. cbn. lia.
Qed.
Lemma sign_pos (z : f64) : Bsign z = false -> 0 <= val z.
Proof.
  unfold val. destruct z as [b|b| |b m e H']; cbn; intro; try lra. subst b. cbn. apply F2R_ge_0. cbn. lia.
Qed.

Lemma rnd_le x y : x <= y -> rnd x <= rnd y.
Proof. rewrite fexp_flt. apply round_le; typeclasses eauto. Qed.
Lemma rnd_0 : rnd 0 = 0.
Proof. apply round_0. typeclasses eauto. Qed.
Lemma huge_pos : 0 < huge.
Proof. apply bpow_gt_0. Qed.
Lemma huge_room : bpow radix2 1000 < huge.
Proof. apply bpow_lt. lia. Qed.
#[local] Opaque huge.

(** [is_rounded z r]: the number z is r rounded, infinite when that is out of range. *)
Definition is_rounded (z : f64) (r : R) : Prop :=
  (fin z /\ val z = rnd r /\ Rabs (rnd r) < huge) \/
  (z = B754_infinity false /\ huge <= rnd r) \/ (z = B754_infinity true /\ rnd r <= - huge).

Lemma out_of_range r : huge <= Rabs (rnd r) -> (0 <= r -> huge <= rnd r) /\ (r <= 0 -> rnd r <= - huge).
Proof.
  intro L. split; intro S.
  - apply rnd_le in S. rewrite rnd_0 in S. rewrite Rabs_pos_eq in L; auto.
  - apply rnd_le in S. rewrite rnd_0 in S. rewrite Rabs_left1 in L by auto. lra.
Qed.

Lemma fsub_rounded x y : fin x -> fin y -> is_rounded (fsub x y) (val x - val y).
Proof.
  intros Fx Fy. pose proof (Bminus_correct 53 1024 prec_ok emax_ok mode_NE x y Fx Fy) as H.
  destruct (Rlt_le_dec (Rabs (rnd (val x - val y))) huge) as [L|L].
  - rewrite Rlt_bool_true in H by exact L. destruct H as [V [F _]]. left. split; auto.
  - rewrite Rlt_bool_false in H by exact L. destruct H as [O S]. rewrite over_inf in O.
    apply inf_of in O. apply out_of_range in L. destruct L as [Lp Ln]. right.
    destruct (Bsign x) eqn:Sx; destruct (Bsign y) eqn:Sy; try discriminate.
    + right. split; [exact O|]. apply Ln. pose proof (sign_neg x Sx). pose proof (sign_pos y Sy). lra.
    + left. split; [exact O|]. apply Lp. pose proof (sign_pos x Sx). pose proof (sign_neg y Sy). lra.
Qed.

Lemma fadd_rounded x y : fin x -> fin y -> is_rounded (fadd x y) (val x + val y).
Proof.
  intros Fx Fy. pose proof (Bplus_correct 53 1024 prec_ok emax_ok mode_NE x y Fx Fy) as H.
  destruct (Rlt_le_dec (Rabs (rnd (val x + val y))) huge) as [L|L].
  - rewrite Rlt_bool_true in H by exact L. destruct H as [V [F _]]. left. split; auto.
  - rewrite Rlt_bool_false in H by exact L. destruct H as [O S]. rewrite over_inf in O.
    apply inf_of in O. apply out_of_range in L. destruct L as [Lp Ln]. right.
    destruct (Bsign x) eqn:Sx; destruct (Bsign y) eqn:Sy; try discriminate.
    + right. split; [exact O|]. apply Ln. pose proof (sign_neg x Sx). pose proof (sign_neg y Sy). lra.
    + left. split; [exact O|]. apply Lp. pose proof (sign_pos x Sx). pose proof (sign_pos y Sy). lra.
Qed.

Lemma signed_product (x y : f64) :
  (xorb (Bsign x) (Bsign y) = false -> 0 <= val x * val y) /\
  (xorb (Bsign x) (Bsign y) = true -> val x * val y <= 0).
Proof.
  split; intro X; destruct (Bsign x) eqn:Sx; destruct (Bsign y) eqn:Sy; cbn in X; try discriminate X.
  - pose proof (sign_neg x Sx). pose proof (sign_neg y Sy). nra.
  - pose proof (sign_pos x Sx). pose proof (sign_pos y Sy). nra.
  - pose proof (sign_neg x Sx). pose proof (sign_pos y Sy). nra.
  - pose proof (sign_pos x Sx). pose proof (sign_neg y Sy). nra.
Qed.

Lemma fmul_rounded x y : fin x -> fin y -> is_rounded (fmul x y) (val x * val y).
Proof.
  intros Fx Fy. pose proof (Bmult_correct 53 1024 prec_ok emax_ok mode_NE x y) as H.
  destruct (Rlt_le_dec (Rabs (rnd (val x * val y))) huge) as [L|L].
  - rewrite Rlt_bool_true in H by exact L. destruct H as [V [F _]]. left. split; auto.
    unfold fin in *. rewrite Fx, Fy in F. exact F.
  - rewrite Rlt_bool_false in H by exact L. rewrite over_inf in H.
    apply inf_of in H. apply out_of_range in L. destruct L as [Lp Ln]. right.
    destruct (signed_product x y) as [P Q].
    destruct (xorb (Bsign x) (Bsign y)) eqn:X; [right|left]; split; auto.
Qed.

Lemma fdiv_rounded x y : fin x -> fin y -> 0 < val y -> is_rounded (fdiv x y) (val x / val y).
Proof.
  intros Fx Fy P. pose proof (Bdiv_correct 53 1024 prec_ok emax_ok mode_NE x y ltac:(unfold val in P; lra)) as H.
  destruct (Rlt_le_dec (Rabs (rnd (val x / val y))) huge) as [L|L].
  - rewrite Rlt_bool_true in H by exact L. destruct H as [V [F _]]. left. split; auto.
    unfold fin in *. rewrite Fx in F. exact F.
  - rewrite Rlt_bool_false in H by exact L. rewrite over_inf in H.
    apply inf_of in H. apply out_of_range in L. destruct L as [Lp Ln]. right.
    assert (Sy : Bsign y = false).
    { destruct (Bsign y) eqn:S; auto. apply sign_neg in S. lra. }
    rewrite Sy in H. pose proof (Rinv_0_lt_compat _ P) as I.
    destruct (Bsign x) eqn:Sx; cbn in H; [right|left]; (split; [exact H|]).
    + apply Ln. pose proof (sign_neg x Sx). unfold Rdiv. nra.
    + apply Lp. pose proof (sign_pos x Sx). unfold Rdiv. nra.
Qed.

(** The order of numbers that are not NaN. *)
Definition xle (x y : f64) : Prop :=
  x <> B754_nan /\ y <> B754_nan /\
  (x = B754_infinity true \/ y = B754_infinity false \/ (fin x /\ fin y /\ val x <= val y)).

Lemma fin_not_nan x : fin x -> x <> B754_nan.
Proof. intros F ->. discriminate. Qed.

Lemma rounded_le z r z' r' : is_rounded z r -> is_rounded z' r' -> r <= r' -> xle z z'.
Proof.
  intros H H' L. apply rnd_le in L. pose proof huge_pos as HP. unfold xle.
  destruct H as [[F [V B]]|[[-> B]|[-> B]]]; destruct H' as [[F' [V' B']]|[[-> B']|[-> B']]];
    (split; [first [discriminate|now apply fin_not_nan]|]); (split; [first [discriminate|now apply fin_not_nan]|]); auto.
  - right. right. split; auto. split; auto. lra.
  - exfalso. apply Rabs_def2 in B. lra.
  - exfalso. apply Rabs_def2 in B'. lra.
  - exfalso. lra.
Qed.

Lemma inf_div s w : fin w -> 0 < val w -> fdiv (B754_infinity s) w = B754_infinity s.
Proof.
  intros F P. destruct w as [b|b| |b m e H]; try discriminate F.
  - exfalso. cbn in P. lra.
  - assert (b = false) as ->. { destruct b; auto. exfalso. pose proof (sign_neg (B754_finite true m e H) eq_refl). lra. }
    unfold fdiv, Bdiv. cbn. now destruct s.
Qed.

Lemma div_mono d d' w : xle d d' -> fin w -> 0 < val w -> xle (fdiv d w) (fdiv d' w).
Proof.
  intros [N [N' L]] F P.
  assert (T : forall x : f64, x <> B754_nan -> exists s, x = B754_infinity s \/ fin x).
  { intros [b|b| |b m e H] Z; try congruence; [exists b; now right|exists b; now left|exists b; now right]. }
  assert (NN : forall x : f64, x <> B754_nan -> fdiv x w <> B754_nan).
  { intros x Z. destruct (T x Z) as [s [->|Fx]]; [now rewrite inf_div|].
    destruct (fdiv_rounded x w Fx F P) as [[G _]|[[-> _]|[-> _]]]; try discriminate. now apply fin_not_nan. }
  split; [now apply NN|]. split; [now apply NN|].
  destruct L as [->|[->|[Fd [Fd' L]]]].
  - left. now rewrite inf_div.
  - right. left. now rewrite inf_div.
  - apply (rounded_le (fdiv d w) (val d / val w) (fdiv d' w) (val d' / val w)); auto using fdiv_rounded.
    unfold Rdiv. apply Rmult_le_compat_r; auto. left. now apply Rinv_0_lt_compat.
Qed.

(** ** The ceiling *)
Lemma ceil_val s m e H : ceil_of s m e = Zceil (val (B754_finite s m e H)).
Proof.
  unfold ceil_of, val. cbn [B2R]. unfold F2R. cbn [Fnum Fexp].
  assert (C : SpecFloat.cond_Zopp s (Zpos m) = if s then Zneg m else Zpos m) by now destruct s.
  unfold SpecFloat.cond_Zopp in C. unfold cond_Zopp. rewrite C. set (sm := if s then Zneg m else Zpos m).
  destruct (0 <=? e)%Z eqn:E.
  - apply Z.leb_le in E. rewrite <- (Zceil_IZR (sm * 2 ^ e)). f_equal. rewrite mult_IZR. f_equal.
    now apply (IZR_Zpower radix2).
  - apply Z.leb_gt in E. unfold Zceil. f_equal. rewrite <- Zfloor_div by (apply Z.pow_nonzero; lia).
    f_equal. rewrite opp_IZR. replace (bpow radix2 e) with (/ IZR (2 ^ (- e))).
    + unfold Rdiv. ring.
    + replace e with (- (- e))%Z at 2 by lia. rewrite bpow_opp. f_equal. apply (IZR_Zpower radix2). lia.
Qed.

(** The bin index of a quotient. *)
Definition clip (nb : nat) (c : Z) : nat :=
  if (c <? 0)%Z then 0%nat else if (Z.of_nat (nb - 1) <? c)%Z then nb else Z.to_nat c.
Lemma clip_le nb c c' : (c <= c')%Z -> (clip nb c <= clip nb c')%nat.
Proof.
  intro L. unfold clip. destruct (c <? 0)%Z eqn:A; [lia|]. apply Z.ltb_ge in A.
  destruct (c' <? 0)%Z eqn:A'; [apply Z.ltb_lt in A'; lia|].
  destruct (Z.of_nat (nb - 1) <? c)%Z eqn:B; destruct (Z.of_nat (nb - 1) <? c')%Z eqn:B'; try lia;
    rewrite ?Z.ltb_lt, ?Z.ltb_ge in *; lia.
Qed.
Lemma clip_bound nb c : (clip nb c <= nb)%nat.
Proof. unfold clip. destruct (c <? 0)%Z eqn:A; [lia|]. apply Z.ltb_ge in A. destruct (Z.of_nat (nb - 1) <? c)%Z eqn:B; [lia|]. apply Z.ltb_ge in B. lia. Qed.

Lemma fbin_fin mn mx nb v q : fdiv (fsub v mn) (fwidth mn mx nb) = q -> fin q ->
  fbin mn mx nb v = Some (clip nb (Zceil (val q))).
Proof.
  intros E F. unfold fbin. rewrite E. destruct q as [b|b| |b m e H]; try discriminate.
  - unfold val, clip. cbn [B2R]. rewrite (Zceil_IZR 0). cbn [Z.ltb Z.compare].
    replace (Z.of_nat (nb - 1) <? 0)%Z with false; [reflexivity|]. symmetry. apply Z.ltb_ge. lia.
  - cbv zeta. rewrite (ceil_val b m e H). reflexivity.
Qed.

(** ** Placing is monotone *)
Lemma bin_mono mn mx nb v v' :
  fin mn -> fin (fwidth mn mx nb) -> 0 < val (fwidth mn mx nb) ->
  fin v -> fin v' -> val v <= val v' ->
  exists a a', fbin mn mx nb v = Some a /\ fbin mn mx nb v' = Some a' /\ (a <= a' <= nb)%nat.
Proof.
  intros Fm Fw Pw Fv Fv' L.
  assert (X : xle (fdiv (fsub v mn) (fwidth mn mx nb)) (fdiv (fsub v' mn) (fwidth mn mx nb))).
  { apply div_mono; auto. apply (rounded_le _ (val v - val mn) _ (val v' - val mn)); auto using fsub_rounded. lra. }
  set (q := fdiv (fsub v mn) _) in *. set (q' := fdiv (fsub v' mn) _) in *.
  destruct X as [N [N' X]].
  assert (A : forall u p, fdiv (fsub u mn) (fwidth mn mx nb) = p -> p <> B754_nan -> exists a, fbin mn mx nb u = Some a /\ (a <= nb)%nat).
  { intros u p Ep Np. destruct p as [b|b| |b m e H]; try congruence.
    - eexists. split; [apply (fbin_fin _ _ _ _ _ Ep); reflexivity|apply clip_bound].
    - unfold fbin. rewrite Ep. eexists. split; [reflexivity|]. destruct b; lia.
    - eexists. split; [apply (fbin_fin _ _ _ _ _ Ep); reflexivity|apply clip_bound]. }
  destruct (A v q eq_refl N) as [a [Ea Ba]]. destruct (A v' q' eq_refl N') as [a' [Ea' Ba']].
  exists a, a'. split; auto. split; auto. split; auto.
  destruct X as [X|[X|[Fq [Fq' X]]]].
  - unfold fbin in Ea. fold q in Ea. rewrite X in Ea. injection Ea as <-. lia.
  - unfold fbin in Ea'. fold q' in Ea'. rewrite X in Ea'. injection Ea' as <-. lia.
  - rewrite (fbin_fin mn mx nb v q eq_refl Fq) in Ea. injection Ea as <-.
    rewrite (fbin_fin mn mx nb v' q' eq_refl Fq') in Ea'. injection Ea' as <-.
    apply clip_le, Zceil_le, X.
Qed.

(** Nothing at or below the minimum leaves the first bin. *)
Lemma bin_min mn mx nb v :
  fin mn -> fin (fwidth mn mx nb) -> 0 < val (fwidth mn mx nb) ->
  fin v -> val v <= val mn -> fbin mn mx nb v = Some 0%nat.
Proof.
  intros Fm Fw Pw Fv L.
  destruct (bin_mono mn mx nb v mn Fm Fw Pw Fv Fm L) as [a [a' [E [E' B]]]].
  assert (Z : a' = 0%nat); [|rewrite E; f_equal; lia].
  assert (X : fin (fsub mn mn) /\ val (fsub mn mn) = 0).
  { destruct (fsub_rounded mn mn Fm Fm) as [[F [V _]]|[[_ H]|[_ H]]];
      rewrite Rminus_diag_eq in * by reflexivity; rewrite rnd_0 in *; pose proof huge_pos; [auto|lra|lra]. }
  destruct X as [Fd Vd].
  destruct (fdiv_rounded (fsub mn mn) _ Fd Fw Pw) as [[F [V _]]|[[_ H]|[_ H]]]; rewrite Vd in *;
    unfold Rdiv in *; rewrite Rmult_0_l, rnd_0 in *; pose proof huge_pos; try lra.
  rewrite (fbin_fin mn mx nb mn _ eq_refl F) in E'. rewrite V in E'. injection E' as <-.
  rewrite (Zceil_IZR 0). unfold clip. cbn [Z.ltb Z.compare].
  replace (Z.of_nat (nb - 1) <? 0)%Z with false; [reflexivity|]. symmetry. apply Z.ltb_ge. lia.
Qed.

(** ** How far rounding can carry a value past an edge *)
Definition u : R := / 9007199254740992.
Definition tiny : R := bpow radix2 (-1075).

Lemma rnd_err r : exists e t, Rabs e <= u /\ Rabs t <= tiny /\ rnd r = r * (1 + e) + t.
Proof.
  rewrite fexp_flt. destruct (error_N_FLT radix2 (-1074) 53 ltac:(lia) (fun x => negb (Z.even x)) r) as [e [t [He [Ht [_ H]]]]].
  exists e, t. split; [|split; [|exact H]].
  - eapply Rle_trans; [exact He|]. unfold u. cbn. lra.
  - eapply Rle_trans; [exact Ht|]. unfold tiny. change (-1075)%Z with (-1 + -1074)%Z. rewrite bpow_plus.
    apply Rmult_le_compat_r; [apply bpow_ge_0|]. cbn. lra.
Qed.

Lemma rnd_sum x y : exists e, Rabs e <= u /\ rnd (val x + val y) = (val x + val y) * (1 + e).
Proof.
  rewrite fexp_flt. destruct (FLT_plus_error_N_ex radix2 (-1074) 53 (fun x => negb (Z.even x)) (val x) (val y) (val_format x) (val_format y)) as [e [He H]].
  exists e. split; auto. eapply Rle_trans; [exact He|]. unfold u_ro. cbn. unfold u. lra.
Qed.
Lemma rnd_diff x y : exists e, Rabs e <= u /\ rnd (val x - val y) = (val x - val y) * (1 + e).
Proof.
  rewrite fexp_flt. destruct (FLT_plus_error_N_ex radix2 (-1074) 53 (fun x => negb (Z.even x)) (val x) (- val y) (val_format x)
    (generic_format_opp _ _ _ (val_format y))) as [e [He H]].
  exists e. split; auto. eapply Rle_trans; [exact He|]. unfold u_ro. cbn. unfold u. lra.
Qed.

Lemma in_range z r : is_rounded z r -> Rabs r <= bpow radix2 1000 -> fin z /\ val z = rnd r.
Proof.
  intros H B.
  assert (L : Rabs (rnd r) < huge).
  { apply Rle_lt_trans with (bpow radix2 1000).
    - rewrite fexp_flt. apply abs_round_le_generic; [typeclasses eauto|typeclasses eauto| |exact B].
      apply generic_format_bpow. cbn. lia.
    - exact huge_room. }
  pose proof huge_pos as HP.
  destruct H as [[F [V _]]|[[_ H]|[_ H]]]; auto; apply Rabs_def2 in L; lra.
Qed.

Lemma fnat_val k : (Z.of_nat k <= 2 ^ 41)%Z -> fin (fnat k) /\ val (fnat k) = INR k.
Proof.
  intro L. pose proof (binary_normalize_correct 53 1024 prec_ok emax_ok mode_NE (Z.of_nat k) 0 false) as H. cbv zeta in H.
  assert (E : F2R (Float radix2 (Z.of_nat k) 0) = INR k).
  { unfold F2R. cbn. rewrite Rmult_1_r. symmetry. apply INR_IZR_INZ. }
  assert (G : round radix2 (SpecFloat.fexp 53 1024) (round_mode mode_NE) (F2R (Float radix2 (Z.of_nat k) 0)) = INR k).
  { rewrite <- E. apply round_generic; [typeclasses eauto|]. rewrite fexp_flt. apply generic_format_FLT.
    exists (Float radix2 (Z.of_nat k) 0); [reflexivity| |cbn; lia].
    cbn [Fnum]. rewrite Z.abs_eq by lia. eapply Z.le_lt_trans; [exact L|reflexivity]. }
  rewrite G in H. rewrite Rlt_bool_true in H.
  - destruct H as [V [F _]]. split; [exact F|exact V].
  - rewrite Rabs_pos_eq by apply pos_INR. rewrite INR_IZR_INZ. apply Rle_lt_trans with (IZR (2 ^ 41)); [now apply IZR_le|].
    change (2 ^ 41)%Z with (radix2 ^ 41)%Z. rewrite IZR_Zpower by lia. apply bpow_lt. lia.
Qed.

Lemma abs_le x b : Rabs x <= b -> - b <= x <= b.
Proof. intro H. apply Rabs_le_inv in H. exact H. Qed.

Lemma prod_err a b A B : Rabs a <= A -> Rabs b <= B -> Rabs (a * b) <= A * B.
Proof. intros Ha Hb. rewrite Rabs_mult. apply Rmult_le_compat; auto using Rabs_pos. Qed.

Section Room.
Context (mn mx : f64) (nb : nat) (RM : roomy mn mx nb).
Let w := val (fwidth mn mx nb).
Let D := val mx - val mn.

Local Lemma w_pos : 0 < w.
Proof. eapply Rlt_le_trans; [|exact (r_lo _ _ _ RM)]. apply bpow_gt_0. Qed.
Local Lemma ends : - (1099511627776 * w) <= val mn <= 1099511627776 * w /\ - (1099511627776 * w) <= val mx <= 1099511627776 * w.
Proof. pose proof (r_amn _ _ _ RM) as A. pose proof (r_amx _ _ _ RM) as B. apply abs_le in A. apply abs_le in B. cbn in A, B. fold w in A, B. split; lra. Qed.
Local Lemma tiny_w : tiny <= w / 1180591620717411303424.
Proof.
  unfold tiny. change (-1075)%Z with (-70 + -1005)%Z. rewrite bpow_plus. pose proof (r_lo _ _ _ RM) as L. fold w in L.
  assert (bpow radix2 (-1005) <= bpow radix2 (-1000)) by (apply bpow_le; lia).
  pose proof (bpow_ge_0 radix2 (-1005)). change (bpow radix2 (-70)) with (/ 1180591620717411303424). lra.
Qed.
Local Lemma tiny_1 : tiny <= / 1180591620717411303424.
Proof.
  unfold tiny. apply Rle_trans with (bpow radix2 (-70)); [apply bpow_le; lia|]. right. reflexivity.
Qed.
Local Lemma cap r : Rabs r <= 1125899906842624 * w -> Rabs r <= bpow radix2 1000.
Proof.
  intro H. eapply Rle_trans; [exact H|]. pose proof (r_hi _ _ _ RM) as L. fold w in L.
  change 1000%Z with (100 + 900)%Z. rewrite bpow_plus. pose proof (bpow_ge_0 radix2 900).
  change (bpow radix2 100) with 1267650600228229401496703205376. pose proof w_pos. nra.
Qed.
Local Lemma cap1 r : Rabs r <= 1125899906842624 -> Rabs r <= bpow radix2 1000.
Proof.
  intro H. eapply Rle_trans; [exact H|]. apply Rle_trans with (bpow radix2 50); [right; reflexivity|apply bpow_le; lia].
Qed.

Local Lemma last_edge : 0 <= D -> Rabs (INR (nb - 1) * w - D) <= w / 1024.
Proof.
  intro P. pose proof ends as [E1 E2]. pose proof w_pos as W. pose proof tiny_w as TW.
  pose proof (r_two _ _ _ RM) as T. pose proof (r_nb _ _ _ RM) as NB.
  destruct (fnat_val (nb - 1) ltac:(lia)) as [Fn Vn].
  assert (N1 : 1 <= INR (nb - 1)). { apply (le_INR 1). lia. }
  assert (N2 : INR (nb - 1) <= 2199023255552).
  { rewrite INR_IZR_INZ. apply IZR_le. change 2199023255552%Z with (2 ^ 41)%Z. lia. }
  assert (DB : D <= 2199023255552 * w) by (unfold D; lra).
  destruct (in_range _ _ (fsub_rounded mx mn (r_mx _ _ _ RM) (r_mn _ _ _ RM))) as [Fd Vd].
  { apply cap. fold D. rewrite Rabs_pos_eq by auto. lra. }
  destruct (rnd_diff mx mn) as [e1 [He1 Q1]]. rewrite Q1 in Vd. fold D in Vd.
  unfold w at 1. unfold fwidth.
  assert (Vw : w = rnd (val (fsub mx mn) / val (fnat (nb - 1)))).
  { unfold w, fwidth. destruct (fdiv_rounded (fsub mx mn) (fnat (nb - 1)) Fd Fn ltac:(rewrite Vn; lra)) as [[_ [V _]]|[[V _]|[V _]]]; auto;
      pose proof (r_w _ _ _ RM) as F; unfold fwidth, fin in F; rewrite V in F; discriminate. }
  change (val (fdiv (fsub mx mn) (fnat (nb - 1)))) with w. rewrite Vn in Vw.
  destruct (rnd_err (val (fsub mx mn) / INR (nb - 1))) as [e2 [t [He2 [Ht Q2]]]]. rewrite Q2, Vd in Vw.
  assert (X : INR (nb - 1) * w - D = D * (e1 + e2 + e1 * e2) + INR (nb - 1) * t).
  { rewrite Vw at 1. field. lra. }
  rewrite X. apply abs_le in He1. apply abs_le in He2. apply abs_le in Ht.
  assert (E3 : Rabs (e1 + e2 + e1 * e2) <= 3 * u).
  { pose proof (prod_err e1 e2 u u ltac:(apply Rabs_le; lra) ltac:(apply Rabs_le; lra)) as PE. apply abs_le in PE.
    apply Rabs_le. unfold u in *. lra. }
  assert (B1 : Rabs (D * (e1 + e2 + e1 * e2)) <= (2199023255552 * w) * (3 * u)).
  { apply prod_err; auto. rewrite Rabs_pos_eq; auto. }
  assert (B2 : Rabs (INR (nb - 1) * t) <= 2199023255552 * tiny).
  { apply prod_err; [rewrite Rabs_pos_eq; lra|apply Rabs_le; lra]. }
  eapply Rle_trans; [apply Rabs_triang|]. unfold u in *. lra.
Qed.

Local Lemma edge_near i : 0 <= D -> (i <= nb - 1)%nat ->
  fin (fedge mn mx nb i) /\ Rabs (val (fedge mn mx nb i) - (val mn + INR i * w)) <= w / 300.
Proof.
  intros P Li. pose proof ends as [E1 E2]. pose proof w_pos as W. pose proof tiny_w as TW.
  pose proof (r_two _ _ _ RM) as T. pose proof (r_nb _ _ _ RM) as NB. pose proof (last_edge P) as LE.
  assert (DB : D <= 2199023255552 * w) by (unfold D; lra).
  unfold fedge. destruct ((i =? nb - 1)%nat && (1 <? nb)%nat) eqn:C.
  { apply andb_true_iff in C. destruct C as [C _]. apply Nat.eqb_eq in C. subst i. split; [exact (r_mx _ _ _ RM)|].
    apply abs_le in LE. unfold D in LE. apply Rabs_le. lra. }
  clear C. destruct (fnat_val i ltac:(lia)) as [Fi Vi].
  assert (I0 : 0 <= INR i) by apply pos_INR.
  assert (I1 : INR i * w <= INR (nb - 1) * w). { apply Rmult_le_compat_r; [lra|]. now apply le_INR. }
  apply abs_le in LE.
  assert (IB : 0 <= INR i * w <= 4398046511104 * w). { split; [now apply Rmult_le_pos; lra|]. lra. }
  destruct (in_range _ _ (fmul_rounded (fnat i) _ Fi (r_w _ _ _ RM))) as [Fp Vp].
  { apply cap. rewrite Vi. fold w. rewrite Rabs_pos_eq by lra. lra. }
  set (p := fmul (fnat i) (fwidth mn mx nb)) in *. rewrite Vi in Vp. fold w in Vp.
  destruct (rnd_err (INR i * w)) as [e1 [t [He1 [Ht Q1]]]]. rewrite Q1 in Vp.
  apply abs_le in Ht.
  assert (PB : Rabs (INR i * w * e1) <= (4398046511104 * w) * u).
  { apply prod_err; auto. rewrite Rabs_pos_eq; lra. }
  apply abs_le in PB.
  assert (PV : - (w / 1024) <= val p - INR i * w <= w / 1024).
  { rewrite Vp. unfold u in *. lra. }
  destruct (in_range _ _ (fadd_rounded p mn Fp (r_mn _ _ _ RM))) as [Fe Ve].
  { apply cap. apply Rabs_le. lra. }
  split; [exact Fe|]. rewrite Ve. destruct (rnd_sum p mn) as [e2 [He2 Q2]]. rewrite Q2.
  assert (SB : Rabs ((val p + val mn) * e2) <= (8796093022208 * w) * u).
  { apply prod_err; auto. apply Rabs_le. lra. }
  apply abs_le in SB. apply Rabs_le. unfold u in *. lra.
Qed.

Local Lemma quotient_near v : fin v -> val mn <= val v <= val mx ->
  exists q, fdiv (fsub v mn) (fwidth mn mx nb) = q /\ fin q /\ Rabs (val q * w - (val v - val mn)) <= w / 1024.
Proof.
  intros Fv B. pose proof ends as [E1 E2]. pose proof w_pos as W. pose proof tiny_1 as T1.
  set (d := val v - val mn).
  assert (dB : 0 <= d <= 2199023255552 * w) by (unfold d; lra).
  destruct (in_range _ _ (fsub_rounded v mn Fv (r_mn _ _ _ RM))) as [Fd Vd].
  { apply cap. fold d. rewrite Rabs_pos_eq by lra. lra. }
  destruct (rnd_diff v mn) as [e1 [He1 Q1]]. rewrite Q1 in Vd. fold d in Vd.
  set (x := d / w). assert (xw : d = x * w) by (unfold x; field; lra).
  assert (xB : 0 <= x <= 2199023255552).
  { split; apply Rmult_le_reg_r with w; auto; rewrite <- xw; lra. }
  assert (Vq : val (fsub v mn) / w = x * (1 + e1)). { rewrite Vd, xw. field. lra. }
  assert (xe : Rabs (x * e1) <= 2199023255552 * u). { apply prod_err; auto. rewrite Rabs_pos_eq; lra. }
  apply abs_le in xe.
  destruct (in_range _ _ (fdiv_rounded (fsub v mn) _ Fd (r_w _ _ _ RM) W)) as [Fq Vr].
  { fold w. rewrite Vq. apply cap1. apply Rabs_le. unfold u in *. lra. }
  eexists. split; [reflexivity|]. split; [exact Fq|]. rewrite Vr. fold w. rewrite Vq.
  destruct (rnd_err (x * (1 + e1))) as [e2 [t [He2 [Ht Q2]]]]. rewrite Q2. apply abs_le in Ht.
  assert (ye : Rabs (x * (1 + e1) * e2) <= 4398046511104 * u).
  { apply prod_err; auto. apply Rabs_le. unfold u in *. lra. }
  apply abs_le in ye.
  assert (Z : Rabs (x * (1 + e1) * (1 + e2) + t - x) <= / 1024). { apply Rabs_le. unfold u in *. lra. }
  rewrite xw. replace ((x * (1 + e1) * (1 + e2) + t) * w - x * w) with ((x * (1 + e1) * (1 + e2) + t - x) * w) by ring.
  rewrite Rabs_mult, (Rabs_pos_eq w) by lra. nra.
Qed.

Lemma near_bin i v : (i < nb)%nat -> fin v -> val mn <= val v <= val mx ->
  exists a, fbin mn mx nb v = Some a /\
    (val v + w / 128 <= val (fedge mn mx nb i) -> (a <= i)%nat) /\
    (val (fedge mn mx nb i) + w / 128 <= val v -> (i < a)%nat).
Proof.
  intros Li Fv B. pose proof w_pos as W.
  destruct (edge_near i ltac:(unfold D; lra) ltac:(lia)) as [Fe Ve]. apply abs_le in Ve.
  destruct (quotient_near v Fv B) as [q [Eq [Fq Vq]]]. apply abs_le in Vq.
  exists (clip nb (Zceil (val q))). split; [now apply fbin_fin|]. split; intro L.
  - assert (Q : val q <= INR i). { apply Rmult_le_reg_r with w; auto. lra. }
    rewrite INR_IZR_INZ in Q. assert (C : (Zceil (val q) <= Z.of_nat i)%Z) by now apply Zceil_glb.
    unfold clip. destruct (Zceil (val q) <? 0)%Z eqn:A; [lia|]. apply Z.ltb_ge in A.
    destruct (Z.of_nat (nb - 1) <? Zceil (val q))%Z eqn:A'; [apply Z.ltb_lt in A'; lia|]. lia.
  - assert (Q : INR i < val q). { apply Rmult_lt_reg_r with w; auto. lra. }
    rewrite INR_IZR_INZ in Q. assert (C : (Z.of_nat i < Zceil (val q))%Z).
    { apply lt_IZR. eapply Rlt_le_trans; [exact Q|]. apply Zceil_ub. }
    unfold clip. destruct (Zceil (val q) <? 0)%Z eqn:A; [apply Z.ltb_lt in A; lia|]. apply Z.ltb_ge in A.
    destruct (Z.of_nat (nb - 1) <? Zceil (val q))%Z eqn:A'; [lia|]. lia.
Qed.
End Room.

(** ** Witnesses *)
Lemma val_sf x : val x = SF2R radix2 (B2SF x).
Proof. symmetry. apply (SF2R_B2SF 53 1024). Qed.
Lemma le_by_compare x y b : fin x -> fin y -> Bleb x y = b -> if b then val x <= val y else val y < val x.
Proof.
  intros Fx Fy E. rewrite (Bleb_correct 53 1024 x y Fx Fy) in E. subst b.
  unfold val. destruct (Rle_bool_spec (B2R x) (B2R y)); auto.
Qed.

Ltac cmp x y b := apply (le_by_compare x y b); vm_compute; reflexivity.

(** 0.1 in ten bins: the eighth edge itself is counted right of it. *)
Definition tenth : f64 := fdiv (fnat 1) (fnat 10).
Lemma right_of_itself : let e := fedge (fnat 0) tenth 11 7 in
  fin e /\ val (fnat 0) <= val e <= val tenth /\ ~ counted_left (fnat 0) tenth 11 e 7.
Proof.
  cbv zeta. split; [vm_compute; reflexivity|]. split.
  - split; [cmp (fnat 0) (fedge (fnat 0) tenth 11 7) true|cmp (fedge (fnat 0) tenth 11 7) tenth true].
  - intros [a [E L]]. assert (X : fbin (fnat 0) tenth 11 (fedge (fnat 0) tenth 11 7) = Some 8%nat) by (vm_compute; reflexivity).
    rewrite X in E. injection E as <-. lia.
Qed.

(** 0.3 in four bins: a number above the fourth edge counted left of it. *)
Definition three_tenths : f64 := fdiv (fnat 3) (fnat 10).
Definition above : f64 := fdiv (fnat 9) (fnat 40).
Lemma left_though_above : fin above /\ val (fedge (fnat 0) three_tenths 5 3) < val above <= val three_tenths /\
  counted_left (fnat 0) three_tenths 5 above 3.
Proof.
  split; [vm_compute; reflexivity|]. split.
  - split; [cmp above (fedge (fnat 0) three_tenths 5 3) false|cmp above three_tenths true].
  - exists 3%nat. split; [vm_compute; reflexivity|lia].
Qed.

(** Whole numbers from 0 to 11 in 16 bins: the largest is counted right of the last edge. *)
Lemma max_outside : fedge (fnat 0) (fnat 11) 16 15 = fnat 11 /\ fbin (fnat 0) (fnat 11) 16 (fnat 11) = Some 16%nat.
Proof. split; [reflexivity|vm_compute; reflexivity]. Qed.

(** A narrow range far from zero: the largest value is counted right of four edges that equal it. *)
Definition far : f64 := fscale 10000000000000000 0.
Definition far2 : f64 := fscale 10000000000000002 0.
Lemma four_edges : (forall i, (6 <= i < 10)%nat -> fedge far far2 11 i = far2) /\ fbin far far2 11 far2 = Some 10%nat.
Proof.
  split; [|vm_compute; reflexivity]. intros i Hi.
  assert (S : B2SF (fedge far far2 11 i) = B2SF far2).
  { assert (C : i = 6%nat \/ i = 7%nat \/ i = 8%nat \/ i = 9%nat) by lia.
    destruct C as [->|[->|[->| ->]]]; vm_compute; reflexivity. }
  now apply (B2SF_inj 53 1024).
Qed.

(** The range 0 to 1 in ten bins is roomy. *)
Lemma unit_roomy : roomy (fnat 0) (fnat 1) 11.
Proof.
  assert (W : val (fwidth (fnat 0) (fnat 1) 11) = 7205759403792794 * / 72057594037927936).
  { rewrite val_sf. assert (X : B2SF (fwidth (fnat 0) (fnat 1) 11) = SpecFloat.S754_finite false 7205759403792794 (-56)) by (vm_compute; reflexivity).
    rewrite X. cbn. unfold F2R. cbn. lra. }
  assert (A0 : val (fnat 0) = 0) by (destruct (fnat_val 0 ltac:(lia)) as [_ V]; rewrite V; reflexivity).
  assert (A1 : val (fnat 1) = 1) by (destruct (fnat_val 1 ltac:(lia)) as [_ V]; rewrite V; reflexivity).
  split; try (vm_compute; reflexivity); try lia.
  - rewrite W. apply Rle_trans with (bpow radix2 (-10)); [apply bpow_le; lia|]. cbn. lra.
  - rewrite W. apply Rle_trans with (bpow radix2 0); [|apply bpow_le; lia]. cbn. lra.
  - rewrite W, A0, Rabs_R0. cbn. lra.
  - rewrite W, A1, Rabs_R1. cbn. lra.
Qed.

Lemma near_bin_left mn mx nb i v :
  roomy mn mx nb -> (i < nb)%nat -> fin v -> val mn <= val v <= val mx ->
  (val v + val (fwidth mn mx nb) / 128 <= val (fedge mn mx nb i) -> counted_left mn mx nb v i) /\
  (val (fedge mn mx nb i) + val (fwidth mn mx nb) / 128 <= val v -> ~ counted_left mn mx nb v i).
Proof.
  intros RM L F B. destruct (near_bin mn mx nb RM i v L F B) as [a [E [P Q]]]. split; intro H.
  - exists a. split; auto.
  - intros [b [E' Lb]]. rewrite E in E'. injection E' as <-. specialize (Q H). lia.
Qed.

Lemma wide_pos : 0 < val (fwidth (fnat 0) (fnat 11) 16).
Proof.
  assert (X : Bleb (fwidth (fnat 0) (fnat 11) 16) (fnat 0) = false) by (vm_compute; reflexivity).
  apply (le_by_compare _ (fnat 0) false) in X; try (vm_compute; reflexivity).
  destruct (fnat_val 0 ltac:(lia)) as [_ V]. rewrite V in X. exact X.
Qed.

Lemma floats_disagree :
  (exists mn mx nb i, (2 <= nb)%nat /\ (i < nb)%nat /\ let e := fedge mn mx nb i in
     fin e /\ val mn <= val e <= val mx /\ ~ counted_left mn mx nb e i) /\
  (exists mn mx nb v i, (2 <= nb)%nat /\ (i < nb)%nat /\ fin (fedge mn mx nb i) /\ fin v /\
     val (fedge mn mx nb i) < val v <= val mx /\ counted_left mn mx nb v i) /\
  (exists top nb : nat, (2 <= nb)%nat /\ forall i, (i < nb)%nat ->
     fedge (fnat 0) (fnat top) nb (nb - 1) = fnat top /\ ~ counted_left (fnat 0) (fnat top) nb (fnat top) i) /\
  (exists mn mx nb i, fin mn /\ fin mx /\ val mn < val mx /\ (i + 4 <= nb - 1)%nat /\
     forall j, (i <= j < i + 4)%nat -> fedge mn mx nb j = mx /\ ~ counted_left mn mx nb mx j).
Proof.
  split; [|split; [|split]].
  - exists (fnat 0), tenth, 11%nat, 7%nat. split; [lia|]. split; [lia|]. exact right_of_itself.
  - exists (fnat 0), three_tenths, 5%nat, above, 3%nat. split; [lia|]. split; [lia|]. split; [vm_compute; reflexivity|]. exact left_though_above.
  - exists 11%nat, 16%nat. split; [lia|]. intros i L. destruct max_outside as [E X]. split; [exact E|].
    intros [a [E' L']]. rewrite X in E'. injection E' as <-. lia.
  - exists far, far2, 11%nat, 6%nat. split; [vm_compute; reflexivity|]. split; [vm_compute; reflexivity|].
    split; [cmp far2 far false|]. split; [lia|]. intros j L. destruct four_edges as [E X]. split; [apply E; lia|].
    intros [a [E' L']]. rewrite X in E'. injection E' as <-. lia.
Qed.

(** Proofs about the tables and the scaling plot. *)
From Coq Require Import List Arith Bool ZArith QArith Qcanon Lia.
From Verif Require Import Base Num NumFacts ListFacts HistAdd Spec TreeSpec Compare Baseline Stability Tables TablesSpec.
Import ListNotations.
Local Open Scope nat_scope.

Definition half : Qc := Q2Qc (1 # 2).
Lemma half_two : (half + half = 1)%Qc.
Proof. apply Qc_is_canon. reflexivity. Qed.
Lemma floor_bounds q : (Zq (qfloor q) <= q)%Qc /\ (q < Zq (qfloor q) + 1)%Qc.
Proof.
  split; [apply qfloor_le; lia|]. apply qnot_le. intros H. rewrite <- Zq_1, <- Zq_plus in H. apply qfloor_le in H. lia.
Qed.
Lemma zround_cases q : let f := qfloor q in
  (zround q = f /\ (q - Zq f <= half)%Qc) \/ (zround q = (f + 1)%Z /\ (half <= q - Zq f)%Qc).
Proof.
  cbn. unfold zround. fold half. set (r := (q - Zq (qfloor q))%Qc). destruct (qlt r half) eqn:E1; [left; apply qlt_spec in E1; split; auto; now apply Qclt_le_weak|].
  destruct (qlt half r) eqn:E2; [right; apply qlt_spec in E2; split; auto; now apply Qclt_le_weak|].
  apply qlt_false in E1, E2. destruct (Z.even (qfloor q)); [left|right]; auto.
Qed.
Lemma zround_near q : (q - half <= Zq (zround q))%Qc /\ (Zq (zround q) <= q + half)%Qc.
Proof.
  destruct (floor_bounds q) as [A B]. pose proof half_two as H2. destruct (zround_cases q) as [[-> R]|[-> R]]; [|rewrite Zq_plus, Zq_1]; generalize dependent half; intros hf; intros; split; qlra.
Qed.
Lemma zround_mono q q' : (q <= q')%Qc -> (zround q <= zround q')%Z.
Proof.
  intros L. destruct (floor_bounds q) as [A B]. destruct (floor_bounds q') as [A' B'].
  assert (F : (qfloor q <= qfloor q')%Z) by (apply qfloor_le; eapply Qcle_trans; eauto).
  assert (C : forall p, (qfloor p <= zround p <= qfloor p + 1)%Z) by (intros p; destruct (zround_cases p) as [[-> _]|[-> _]]; lia).
  destruct (Z.eq_dec (qfloor q) (qfloor q')) as [E|E]; [|pose proof (C q); pose proof (C q'); lia].
  unfold zround. rewrite <- E. fold half. set (r := (q - Zq (qfloor q))%Qc). set (r' := (q' - Zq (qfloor q))%Qc).
  assert (R : (r <= r')%Qc) by (unfold r, r'; qlra).
  destruct (qlt r half) eqn:E1, (qlt r' half) eqn:E1'; try lia.
  - destruct (qlt half r'), (Z.even (qfloor q)); lia.
  - apply qlt_spec in E1'. apply qlt_false in E1. exfalso. revert R E1 E1'. generalize half. intros. qlra.
  - destruct (qlt half r) eqn:E2, (qlt half r') eqn:E2'; try lia.
    + apply qlt_spec in E2. apply qlt_false in E2'. exfalso. revert R E2 E2'. generalize half. intros. qlra.
    + destruct (Z.even (qfloor q)); lia.
Qed.
Lemma zround_int z : zround (Zq z) = z.
Proof.
  destruct (zround_near (Zq z)) as [A B]. assert (L : (Zq (z - 1) < Zq (zround (Zq z)))%Qc /\ (Zq (zround (Zq z)) < Zq (z + 1))%Qc).
  { rewrite Zq_minus, Zq_plus, Zq_1. assert (H : (half < 1)%Qc) by reflexivity. revert A B H. generalize half. intros. split; qlra. }
  destruct L as [L1 L2]. apply Zq_lt in L1, L2. lia.
Qed.

Lemma k_pos : (0 < Nq 1000)%Qc.
Proof. reflexivity. Qed.
Lemma k_neq : (Nq 1000 <> 0)%Qc.
Proof. apply Nq_neq0. lia. Qed.
Lemma round3_mul q : (round3 q * Nq 1000 = Zq (zround (q * Nq 1000)))%Qc.
Proof. unfold round3. apply qdiv_mult. exact k_neq. Qed.

Lemma off_scale p q : (off p q * (Nq 1000 * Nq 1000) = off (p * Nq 1000) (q * Nq 1000))%Qc.
Proof. unfold off. ring. Qed.
Lemma nearer h u v w : (w - h <= v)%Qc -> (v <= w + h)%Qc -> (h + h = 1)%Qc -> (u + 1 <= v)%Qc \/ (v + 1 <= u)%Qc -> ((v - w) * (v - w) <= (u - w) * (u - w))%Qc.
Proof.
  intros A B H2 L. assert (P : (0 <= (v - u) * (w + w - u - v))%Qc).
  { destruct L as [L|L].
    - assert (P1 : (0 <= v - u)%Qc) by qlra. assert (P2 : (0 <= w + w - u - v)%Qc) by qlra.
      clear - P1 P2. revert P1 P2. generalize (v - u)%Qc (w + w - u - v)%Qc. intros. qnra.
    - assert (P1 : (v - u <= 0)%Qc) by qlra. assert (P2 : (w + w - u - v <= 0)%Qc) by qlra.
      clear - P1 P2. revert P1 P2. generalize (v - u)%Qc (w + w - u - v)%Qc. intros. qnra. }
  assert (Q : ((u - w) * (u - w) = (v - w) * (v - w) + (v - u) * (w + w - u - v))%Qc) by ring. rewrite Q.
  clear - P. revert P. generalize ((v - u) * (w + w - u - v))%Qc ((v - w) * (v - w))%Qc. intros. qlra.
Qed.
Lemma round3_closest q : closest q (round3 q).
Proof.
  split; [exists (zround (q * Nq 1000)); exact (round3_mul q)|]. intros p [k Hk]. change (rat 1000) with (Nq 1000) in Hk. change (Q2Qc (inject_Z k)) with (Zq k) in Hk.
  assert (P : (0 < Nq 1000 * Nq 1000)%Qc) by reflexivity.
  assert (G : (off (round3 q * Nq 1000) (q * Nq 1000) <= off (p * Nq 1000) (q * Nq 1000))%Qc).
  { rewrite round3_mul, Hk. set (y := (q * Nq 1000)%Qc). destruct (zround_near y) as [A B]. set (z := zround y) in *.
    pose proof half_two as H2. unfold off. destruct (Z.lt_trichotomy k z) as [L|[->|L]].
    - assert (L' : (Zq k + 1 <= Zq z)%Qc) by (rewrite <- Zq_1, <- Zq_plus; apply (proj1 (Zq_le _ _)); lia). apply (nearer half); auto.
    - apply Qcle_refl.
    - assert (L' : (Zq z + 1 <= Zq k)%Qc) by (rewrite <- Zq_1, <- Zq_plus; apply (proj1 (Zq_le _ _)); lia). apply (nearer half); auto. }
  rewrite <- !off_scale in G. revert G P. generalize (off (round3 q) q) (off p q) (Nq 1000 * Nq 1000)%Qc. intros a b c G P.
  apply qnot_lt. intros L. qnra.
Qed.
Lemma round3_mono q q' : (q <= q')%Qc -> (round3 q <= round3 q')%Qc.
Proof.
  intros L. assert (Z : (zround (q * Nq 1000) <= zround (q' * Nq 1000))%Z) by (apply zround_mono; apply Qcmult_le_compat_r; [exact L|apply Nq_nonneg]).
  apply Zq_le in Z. rewrite <- !round3_mul in Z. apply qnot_lt. intros H. pose proof k_pos. revert Z H H0. generalize (round3 q) (round3 q') (Nq 1000). intros. qnra.
Qed.
Lemma round3_exact q : thousandth q -> round3 q = q.
Proof.
  intros [k Hk]. change (rat 1000) with (Nq 1000) in Hk. change (Q2Qc (inject_Z k)) with (Zq k) in Hk. unfold round3. rewrite Hk, zround_int, <- Hk.
  unfold Qcdiv. rewrite <- Qcmult_assoc, (Qcmult_inv_r _ k_neq). ring.
Qed.

(** Table 5. *)
Lemma xabs_fin q : xabs (Fin q) = Fin (if qlt q 0%Qc then (- q)%Qc else q).
Proof. unfold xabs. destruct (qlt q 0%Qc); reflexivity. Qed.
Lemma interval_cell M n conf l m s : st_avg (stat_of M n l) = Fin m -> st_std (stat_of M n l) = Fin s -> (0 <= conf * s)%Qc ->
  let i := interval M n conf l in
  midway (fst i) (snd i) = Fin m /\ half_width (fst i) (snd i) = Fin (conf * s)%Qc.
Proof.
  intros A S P. unfold interval. rewrite A, S. cbn [fst snd xmul xsub xadd xopp]. unfold midway, half_width. cbn [xadd xsub xopp].
  assert (N2 : (Nq 2 <> 0)%Qc) by (apply Nq_neq0; lia). assert (E2 : Nq 2 = (1 + 1)%Qc) by reflexivity.
  split.
  - cbn [xdiv]. rewrite (proj2 (qeq_false _ _) N2). f_equal. rewrite E2 in *. field. exact N2.
  - rewrite xabs_fin. cbn [xdiv]. rewrite (proj2 (qeq_false _ _) N2).
    destruct (qlt _ 0%Qc) eqn:E.
    + f_equal. rewrite E2 in *. field. exact N2.
    + apply qlt_false in E. assert (Z : (conf * s = 0)%Qc) by (apply Qcle_antisym; [qlra|exact P]). f_equal.
      transitivity ((- (s * conf) - s * conf) / Nq 2)%Qc; [f_equal; ring|]. rewrite (Qcmult_comm s conf), Z. apply Qc_is_canon. reflexivity.
Qed.

(** R squared. *)
Lemma misfit_poly a b xs ys : length xs = length ys ->
  let n := Nq (length xs) in let X := qsum xs in let Y := qsum ys in
  let XX := qsum (map (fun x => x * x)%Qc xs) in let YY := qsum (map (fun x => x * x)%Qc ys) in
  let XY := qsum (map (fun p => fst p * snd p)%Qc (combine xs ys)) in
  misfit a b xs ys = (YY - a * Y - a * Y - b * XY - b * XY + n * a * a + a * b * X + a * b * X + b * b * XX)%Qc.
Proof.
  unfold misfit. revert ys. induction xs as [|x xs IH]; intros [|y ys] L; try discriminate; [cbn [length combine map total qsum]; rewrite Nq_0; ring|].
  injection L as L. specialize (IH ys L). cbn [length combine map total qsum fst snd] in *. rewrite IH, Nq_S. unfold off, line_at. ring.
Qed.
Lemma flat_slope g h : (0 <= h)%Qc -> (forall t, 0 <= t * g + t * t * h)%Qc -> g = 0%Qc.
Proof.
  intros H F. destruct (Qc_eq_dec h 0) as [->|N].
  - specialize (F (- g)%Qc). assert (Z : (g * g <= 0)%Qc) by qlra. destruct (Qc_eq_dec g 0) as [E|E]; auto.
    exfalso. assert (0 < g * g)%Qc; [|qlra]. destruct (Qcle_lt_or_eq 0 (g * g)%Qc); [qnra|auto|]. symmetry in H0. apply Qcmult_integral in H0. tauto.
  - specialize (F (- g / (h + h))%Qc). assert (NH : (h + h <> 0)%Qc) by (intros E; apply N; apply Qcle_antisym; [qlra|exact H]).
    assert (PH : (0 < h)%Qc) by (apply Qcle_lt_or_eq in H; destruct H; auto; congruence).
    assert (E : ((- g / (h + h)) * g + (- g / (h + h)) * (- g / (h + h)) * h = - (g * g) / (h + h + h + h))%Qc).
    { field. split; auto. intros Q. apply N. apply Qcle_antisym; [qlra|exact H]. }
    rewrite E in F. rewrite qle_div_iff in F by qlra. destruct (Qc_eq_dec g 0) as [G|G]; auto.
    exfalso. assert (0 < g * g)%Qc; [|qlra]. destruct (Qcle_lt_or_eq 0 (g * g)%Qc); [qnra|auto|]. symmetry in H0. apply Qcmult_integral in H0. tauto.
Qed.
Lemma sq_sum_nonneg l : (0 <= qsum (map (fun x => x * x)%Qc l))%Qc.
Proof. induction l as [|x l IH]; cbn; [apply Qcle_refl|]. revert IH. generalize (qsum (map (fun x => x * x)%Qc l)). intros. qnra. Qed.
Lemma sq_zero x : (x * x = 0)%Qc -> x = 0%Qc.
Proof. intros H. apply Qcmult_integral in H. tauto. Qed.
Lemma off_nonneg p q : (0 <= off p q)%Qc.
Proof. unfold off. generalize (p - q)%Qc. intros. qnra. Qed.
Lemma squares_nonneg a b : (0 <= squares a b)%Qc.
Proof.
  unfold squares. induction (combine a b) as [|[x y] l IH]; cbn; [apply Qcle_refl|]. pose proof (off_nonneg x y) as O. unfold off in O.
  revert IH O. generalize (qsum (map (fun p => (fst p - snd p) * (fst p - snd p))%Qc l)) ((x - y) * (x - y))%Qc. intros. qlra.
Qed.
Lemma squares_zero a b : length a = length b -> squares a b = 0%Qc -> a = b.
Proof.
  unfold squares. revert b. induction a as [|x a IH]; intros [|y b] L H; try discriminate; auto. injection L as L. cbn in H.
  pose proof (squares_nonneg a b) as N. unfold squares in N. pose proof (off_nonneg x y) as O. unfold off in O.
  assert (Z1 : ((x - y) * (x - y) = 0)%Qc) by (apply Qcle_antisym; [|exact O]; revert H N; generalize ((x - y) * (x - y))%Qc (qsum (map (fun p => (fst p - snd p) * (fst p - snd p))%Qc (combine a b))); intros; qlra).
  rewrite Z1, Qcplus_0_l in H. f_equal; [|now apply IH]. apply sq_zero in Z1. replace x with ((x - y) + y)%Qc by ring. rewrite Z1. ring.
Qed.
Lemma squares_misfit a b xs ys : squares (map (line_at a b) xs) ys = misfit a b xs ys.
Proof.
  unfold squares, misfit. revert ys. induction xs as [|x xs IH]; intros [|y ys]; try reflexivity. cbn [map combine qsum total fst snd]. rewrite IH. reflexivity.
Qed.
Lemma squares_same l : squares l l = 0%Qc.
Proof. unfold squares. induction l as [|x l IH]; cbn; auto. rewrite IH. ring. Qed.

Lemma normal_equations a b xs ys : length xs = length ys -> least_line a b xs ys ->
  (Nq (length xs) * a + b * qsum xs = qsum ys)%Qc /\
  (a * qsum xs + b * qsum (map (fun x => x * x)%Qc xs) = qsum (map (fun p => fst p * snd p)%Qc (combine xs ys)))%Qc.
Proof.
  intros L H. pose proof (fun a' b' => misfit_poly a' b' xs ys L) as P. cbn in P. unfold least_line in H.
  pose proof (Nq_nonneg (length xs)) as Nn. pose proof (sq_sum_nonneg xs) as Nx.
  set (n := Nq (length xs)) in *. set (X := qsum xs) in *. set (Y := qsum ys) in *. set (XX := qsum (map (fun x => x * x)%Qc xs)) in *. set (YY := qsum (map (fun x => x * x)%Qc ys)) in *.
  set (XY := qsum (map (fun p => fst p * snd p)%Qc (combine xs ys))) in *.
  split.
  - assert (G : ((n * a + b * X - Y) + (n * a + b * X - Y) = 0)%Qc).
    { apply (flat_slope _ n Nn). intros t. specialize (H (a + t)%Qc b). rewrite !P in H. clearbody n X Y XX YY XY. qlra. }
    clearbody n X Y. qlra.
  - assert (G : ((a * X + b * XX - XY) + (a * X + b * XX - XY) = 0)%Qc).
    { apply (flat_slope _ XX Nx). intros t. specialize (H a (b + t)%Qc). rewrite !P in H. clearbody n X Y XX YY XY. qlra. }
    clearbody XY X XX. qlra.
Qed.

Lemma spread_poly m ys : squares (map (fun _ => m) ys) ys = (qsum (map (fun y => y * y)%Qc ys) - m * qsum ys - m * qsum ys + Nq (length ys) * m * m)%Qc.
Proof. unfold squares. induction ys as [|y ys IH]; cbn [map combine qsum fst snd length]; [rewrite Nq_0; ring|]. rewrite IH, Nq_S. ring. Qed.
Lemma covar_self l : covar l l = (Nq (length l) * qsum (map (fun x => x * x)%Qc l) - qsum l * qsum l)%Qc.
Proof.
  unfold covar. rewrite !total_qsum. change rat with Nq. do 3 f_equal. induction l as [|x l IH]; cbn; auto. now rewrite IH.
Qed.

Lemma r_squared_ok a b xs ys : length xs = length ys -> least_line a b xs ys -> varied ys ->
  exists r, r_squared (map (line_at a b) xs) ys = Fin r /\ (0 <= r)%Qc /\ (r <= 1)%Qc /\ (r = 1%Qc <-> map (line_at a b) xs = ys) /\
    (r * (covar xs xs * covar ys ys) = covar xs ys * covar xs ys)%Qc.
Proof.
  intros L H V. assert (PN : 0 < length ys) by (destruct V as [x [_ [Hx _]]]; destruct ys; [easy|cbn; lia]).
  pose proof (Nq_neq0 _ PN) as NZ. unfold r_squared. cbn [xdiv]. rewrite (proj2 (qeq_false _ _) NZ).
  set (m := (qsum ys / Nq (length ys))%Qc). set (SST := squares (map (fun _ => m) ys) ys). rewrite squares_misfit.
  assert (ST : SST <> 0%Qc).
  { intros E. apply squares_zero in E; [|apply map_length]. destruct V as [x [y [Hx [Hy D]]]]. apply D.
    assert (forall z, In z ys -> z = m) as Q by (intros z Hz; rewrite <- E in Hz; apply in_map_iff in Hz; destruct Hz as [? [? _]]; auto). now rewrite (Q x), (Q y). }
  cbn [xdiv]. rewrite (proj2 (qeq_false _ _) ST). cbn [xsub xopp xadd].
  assert (PT : (0 < SST)%Qc). { destruct (Qcle_lt_or_eq 0 SST (squares_nonneg _ _)); auto. congruence. }
  set (SSE := misfit a b xs ys).
  assert (LE : (SSE <= SST)%Qc).
  { unfold SST. replace (squares (map (fun _ : Qc => m) ys) ys) with (misfit m 0%Qc xs ys); [apply H|].
    clearbody m. clear - L. unfold misfit, squares. revert ys L. induction xs as [|x xs IH]; intros [|y ys] L; try discriminate; auto. injection L as L. cbn [combine map total qsum fst snd]. rewrite (IH _ L). unfold off, line_at. ring. }
  assert (GE : (0 <= SSE)%Qc) by (unfold SSE; rewrite <- squares_misfit; apply squares_nonneg).
  assert (Q : (SSE / SST * SST = SSE)%Qc) by now apply qdiv_mult.
  exists (1 + - (SSE / SST))%Qc. split; [reflexivity|].
  assert (D1 : (SSE / SST <= 1)%Qc) by (apply qdiv_le_iff; [exact PT|]; now rewrite Qcmult_1_l).
  assert (D0 : (0 <= SSE / SST)%Qc) by now apply qdiv_le_0.
  split; [revert D1; generalize (SSE / SST)%Qc; clear; intros; qlra|]. split; [revert D0; generalize (SSE / SST)%Qc; clear; intros; qlra|]. split.
  - split; intros E.
    + assert (Z : (SSE / SST = 0)%Qc) by (revert E; generalize (SSE / SST)%Qc; clear; intros; qlra). rewrite Z, Qcmult_0_l in Q.
      apply squares_zero; [rewrite map_length; exact L|]. rewrite squares_misfit. symmetry. exact Q.
    + assert (Z : SSE = 0%Qc) by (unfold SSE; rewrite <- squares_misfit, E; apply squares_same). rewrite Z. unfold Qcdiv. ring.
  - destruct (normal_equations a b xs ys L H) as [N1 N2]. rewrite !covar_self. unfold covar. change total with qsum. change rat with Nq.
    assert (ES : SSE = _) by exact (misfit_poly a b xs ys L). assert (ET : SST = _) by exact (spread_poly m ys).
    rewrite L in *. set (n := Nq (length ys)) in *. set (X := qsum xs) in *. set (Y := qsum ys) in *. set (XX := qsum (map (fun x => x * x)%Qc xs)) in *. set (YY := qsum (map (fun x => x * x)%Qc ys)) in *.
    set (XY := qsum (map (fun p => fst p * snd p)%Qc (combine xs ys))) in *.
    assert (EM : (m * n = Y)%Qc) by (unfold m; now apply qdiv_mult).
    clearbody SSE SST n X Y XX YY XY m. clear - ES ET N1 N2 EM NZ ST.
    assert (F : (SST * n = n * YY - Y * Y)%Qc). { rewrite ET, <- EM. ring. }
    assert (G : ((SST - SSE) * n = b * (n * XY - X * Y))%Qc). { transitivity (SST * n - SSE * n)%Qc; [ring|]. rewrite F, ES, <- N1, <- N2. ring. }
    assert (K : (b * (n * XX - X * X) = n * XY - X * Y)%Qc). { rewrite <- N1, <- N2. ring. }
    rewrite <- F. assert (R : ((1 + - (SSE / SST)) * SST = SST - SSE)%Qc) by (field; exact ST).
    transitivity (((1 + - (SSE / SST)) * SST) * n * (n * XX - X * X))%Qc; [ring|]. rewrite R, G, <- K. ring.
Qed.
Lemma r_squared_flat a b xs ys : length xs = length ys -> least_line a b xs ys -> ~ varied ys -> r_squared (map (line_at a b) xs) ys = NaN.
Proof.
  intros L H V. unfold r_squared. destruct ys as [|y ys].
  - destruct xs; [|discriminate]. reflexivity.
  - set (l := y :: ys) in *. assert (PN : 0 < length l) by (cbn; lia). pose proof (Nq_neq0 _ PN) as NZ. cbn [xdiv]. rewrite (proj2 (qeq_false _ _) NZ).
    set (m := (qsum l / Nq (length l))%Qc).
    assert (A : forall z, In z l -> z = y). { intros z Hz. destruct (Qc_eq_dec z y) as [E|E]; auto. exfalso. apply V. exists z, y. split; [exact Hz|]. split; [now left|exact E]. }
    assert (S : qsum l = (Nq (length l) * y)%Qc).
    { clear - A. induction l as [|x l IH]; cbn [qsum length]; [rewrite Nq_0; ring|]. rewrite Nq_S, IH by (intros; apply A; now right). rewrite (A x) by now left. ring. }
    assert (M : m = y) by (unfold m; rewrite S; field; exact NZ).
    assert (C : map (fun _ => m) l = l) by (rewrite M; clear - A; induction l as [|x l IH]; cbn; auto; rewrite IH by (intros; apply A; now right); rewrite (A x) by (now left); reflexivity).
    rewrite C, squares_same.
    assert (Z : squares (map (line_at a b) xs) l = 0%Qc).
    { apply Qcle_antisym; [|apply squares_nonneg]. rewrite squares_misfit. eapply Qcle_trans; [apply (H y 0%Qc)|]. rewrite <- squares_misfit.
      replace (map (line_at y 0%Qc) xs) with l; [rewrite squares_same; apply Qcle_refl|].
      clear - A L. revert L A. generalize l. clear. induction xs as [|x xs IH]; intros [|z l] L A; try discriminate; auto. injection L as L. cbn. rewrite <- (IH l L) by (intros; apply A; now right).
      rewrite (A z) by now left. f_equal. unfold line_at. ring. }
    rewrite Z. reflexivity.
Qed.

Lemma shown_round x : shown x (xround x).
Proof. destruct x; cbn; auto. eexists. split; [reflexivity|apply round3_closest]. Qed.
Lemma shows_cell st : shows st (cell_of st).
Proof. split; apply shown_round. Qed.

Lemma runtime_rows_ok ours theirs rows : runtime_rows ours theirs = Ok rows -> exists o t a b c d,
  sd_test ours = Some o /\ sd_test theirs = Some t /\ rows = [(false, [a; b]); (true, [c; d])] /\
  shows (sd_queries theirs) a /\ shows t b /\ shows (sd_queries ours) c /\ shows o d.
Proof.
  unfold runtime_rows. intros H. apply rbind_ok in H. destruct H as [o [Eo H]]. apply rbind_ok in H. destruct H as [t [Et H]]. apply opt_res_ok in Eo, Et. injection H as <-.
  exists o, t. do 4 eexists. split; [exact Eo|]. split; [exact Et|]. split; [reflexivity|]. repeat split; apply shown_round.
Qed.
Lemma budget_rows_ok ours theirs rows : budget_rows ours theirs = Ok rows -> exists o t a b c d,
  sd_test ours = Some o /\ sd_test theirs = Some t /\ rows = [(false, [a; b]); (true, [c; d])] /\
  shows (sd_trees theirs) a /\ shows t b /\ shows (sd_trees ours) c /\ shows o d.
Proof.
  unfold budget_rows. intros H. apply rbind_ok in H. destruct H as [o [Eo H]]. apply rbind_ok in H. destruct H as [t [Et H]]. apply opt_res_ok in Eo, Et. injection H as <-.
  exists o, t. do 4 eexists. split; [exact Eo|]. split; [exact Et|]. split; [reflexivity|]. repeat split; apply shown_round.
Qed.
Lemma stability_rows_ok M n conf l1 l2 m1 s1 m2 s2 : (0 <= conf)%Qc ->
  st_avg (stat_of M n l1) = Fin m1 -> st_std (stat_of M n l1) = Fin s1 -> (0 <= s1)%Qc ->
  st_avg (stat_of M n l2) = Fin m2 -> st_std (stat_of M n l2) = Fin s2 -> (0 <= s2)%Qc ->
  exists a b c d, stability_rows (interval M n conf l1) (interval M n conf l2) = [(false, [(Fin a, Fin b)]); (true, [(Fin c, Fin d)])] /\
    closest m1 a /\ closest (conf * s1)%Qc b /\ closest m2 c /\ closest (conf * s2)%Qc d.
Proof.
  intros C A1 S1 P1 A2 S2 P2. assert (Q1 : (0 <= conf * s1)%Qc) by qnra. assert (Q2 : (0 <= conf * s2)%Qc) by qnra.
  destruct (interval_cell M n conf l1 m1 s1 A1 S1 Q1) as [E1 F1]. destruct (interval_cell M n conf l2 m2 s2 A2 S2 Q2) as [E2 F2].
  unfold stability_rows. rewrite E1, F1, E2, F2. cbn [xround]. do 4 eexists. split; [reflexivity|]. repeat split; try apply round3_closest.
Qed.
Lemma accuracy_rows_ok oc : exists a b, accuracy_rows oc = [(false, [a]); (true, [b])] /\ shows (oc_their_train oc) a /\ shows (oc_train oc) b.
Proof. do 2 eexists. split; [reflexivity|]. split; apply shows_cell. Qed.

(** A split search on a table whose rows are all repeated. *)
From Coq Require Import List Arith Bool ZArith QArith Qcanon Lia Permutation Sorted.
From Verif Require Import Base Num Rng Histogram Utils Criteria Solvers Tree Spec SolverSpec TreeSpec InvarSpec CopySpec NumFacts ListFacts HistFacts HistAdd CritFacts MakeHist ExactFacts ExactTotal ExactProps MoveFacts.
Import ListNotations.
Local Open Scope nat_scope.

(** ** Copies of a list *)
Lemma copies_length {A} k (l : list A) : length (copies k l) = k * length l.
Proof. induction k; cbn; auto. rewrite app_length, IHk. reflexivity. Qed.
Lemma copies_map {A B} (f : A -> B) k l : map f (copies k l) = copies k (map f l).
Proof. induction k; cbn; auto. rewrite map_app, IHk. reflexivity. Qed.
Lemma copies_filter {A} (p : A -> bool) k l : filter p (copies k l) = copies k (filter p l).
Proof. induction k; cbn; auto. rewrite filter_app, IHk. reflexivity. Qed.
Lemma copies_in {A} k (l : list A) x : 1 <= k -> (In x (copies k l) <-> In x l).
Proof.
  intros K. destruct k as [|k]; [lia|]. clear K. split; intros H.
  - revert H. generalize (S k). intros n. induction n; cbn; [contradiction|]. intros H. apply in_app_iff in H. tauto.
  - cbn. apply in_app_iff. auto.
Qed.
Lemma copies_app {A} j k (l : list A) : copies (j + k) l = copies j l ++ copies k l.
Proof. induction j; cbn; auto. now rewrite IHj, app_assoc. Qed.
Lemma copies_copies {A} j k (l : list A) : copies j (copies k l) = copies (j * k) l.
Proof. induction j; cbn; auto. now rewrite copies_app, IHj. Qed.
Lemma copies_one {A} (l : list A) : copies 1 l = l.
Proof. cbn. apply app_nil_r. Qed.
Lemma copies_perm {A} k (l l' : list A) : Permutation l l' -> Permutation (copies k l) (copies k l').
Proof. intros P. induction k; cbn; [constructor|]. now apply Permutation_app. Qed.
Lemma copies_combine {A B} k (x : list A) (y : list B) : length x = length y -> combine (copies k x) (copies k y) = copies k (combine x y).
Proof.
  intros E. assert (G : forall (x1 x2 : list A) (y1 y2 : list B), length x1 = length y1 -> combine (x1 ++ x2) (y1 ++ y2) = combine x1 y1 ++ combine x2 y2).
  { induction x1; intros x2 [|b y1] y2 H; cbn in *; try lia; auto. f_equal. apply IHx1. lia. }
  induction k; cbn; auto. rewrite G, IHk; auto.
Qed.
Lemma make_huge_copies {A B} d : forall (x : list A) (y : list B), make_huge d x y = (copies (2 ^ d) x, copies (2 ^ d) y).
Proof.
  induction d; intros x y; cbn [make_huge]; [now rewrite !copies_one|]. rewrite IHd. assert (E : forall T (l : list T), l ++ l = copies 2 l) by (intros; cbn; now rewrite app_nil_r).
  rewrite !E, !copies_copies. assert (Q : 2 ^ d * 2 = 2 ^ S d) by (cbn; lia). now rewrite Q.
Qed.

(** ** Impurities *)
Lemma copies_occurrences k c l : occurrences c (copies k l) = k * occurrences c l.
Proof. induction k; cbn [copies]; [reflexivity|]. unfold occurrences in *. rewrite count_occ_app, IHk. reflexivity. Qed.
Lemma rat_mult a b : rat (a * b) = (rat a * rat b)%Qc.
Proof. change rat with Nq. apply Nq_mult. Qed.
Lemma rat_pos k : 1 <= k -> rat k <> 0%Qc.
Proof. intros H. change rat with Nq. apply Nq_neq0. lia. Qed.
Lemma rat_ratio k a b : 1 <= k -> (rat (k * a) / rat (k * b))%Qc = (rat a / rat b)%Qc.
Proof.
  intros K. rewrite !rat_mult. destruct b as [|b].
  - change (rat 0) with 0%Qc. rewrite Qcmult_0_r. unfold Qcdiv. change (/ 0)%Qc with 0%Qc. ring.
  - field. split; apply rat_pos; lia.
Qed.
Lemma copies_fraction k c l : 1 <= k -> fraction c (copies k l) = fraction c l.
Proof. intros K. unfold fraction. rewrite copies_occurrences, copies_length. now apply rat_ratio. Qed.
Lemma copies_nodup k l : 1 <= k -> Permutation (nodup Qc_eq_dec (copies k l)) (nodup Qc_eq_dec l).
Proof. intros K. apply NoDup_Permutation; try apply NoDup_nodup. intros x. rewrite !nodup_In. now apply copies_in. Qed.
Lemma total_perm l l' : Permutation l l' -> total l = total l'.
Proof. induction 1; cbn; try ring; congruence. Qed.
Lemma copies_gini k l : 1 <= k -> gini (copies k l) = gini l.
Proof.
  intros K. unfold gini. apply (f_equal (fun x => (1 - x)%Qc)). rewrite (total_perm _ _ (Permutation_map _ (copies_nodup k l K))). f_equal. apply map_ext. intros c. now rewrite copies_fraction.
Qed.
Lemma copies_entropy lg k l : 1 <= k -> entropy lg (copies k l) = entropy lg l.
Proof.
  intros K. unfold entropy. rewrite (total_perm _ _ (Permutation_map _ (copies_nodup k l K))). f_equal. apply map_ext. intros c. now rewrite copies_fraction.
Qed.
Lemma copies_total k l : total (copies k l) = (rat k * total l)%Qc.
Proof.
  induction k; cbn [copies]; [change (rat 0) with 0%Qc; cbn; ring|]. assert (G : forall x y, total (x ++ y) = (total x + total y)%Qc) by (induction x; intros; cbn; [ring|rewrite IHx; ring]).
  rewrite G, IHk, rat_S. ring.
Qed.
Lemma copies_mean k l : 1 <= k -> mean (copies k l) = mean l.
Proof.
  intros K. unfold mean. rewrite copies_total, copies_length. destruct l as [|a l]; [cbn; unfold Qcdiv; ring|]. rewrite rat_mult. field. split; apply rat_pos; cbn; lia.
Qed.
Lemma copies_variance k l : 1 <= k -> variance (copies k l) = variance l.
Proof.
  intros K. unfold variance. rewrite copies_mean, copies_map by auto. set (d := map (fun y => ((y - mean l) * (y - mean l))%Qc) l). assert (E : length l = length d) by (unfold d; now rewrite map_length).
  rewrite copies_length, E, <- (copies_length k d). apply (copies_mean k d K).
Qed.
Lemma copies_impurity M c k l : 1 <= k -> (s_class c = false -> s_measure c <> GINI) -> impurity M c (copies k l) = impurity M c l.
Proof.
  intros K NG. unfold impurity. destruct (s_class c); [destruct (s_measure c); try (now apply copies_gini); now apply copies_entropy|destruct (s_measure c); try (now apply copies_variance); now elim NG].
Qed.

(** ** The search *)
Lemma reduction_copies imp k T f v : 1 <= k -> (forall l, imp (copies k l) = imp l) -> reduction imp (copies k T) f v = reduction imp T f v.
Proof.
  intros K HI. unfold reduction, left_part, right_part, labels_of. rewrite !copies_filter, !copies_length, !copies_map, !HI, !rat_ratio by auto. reflexivity.
Qed.
Lemma values_copies k data f : SolverSpec.feature_values (copies k data) f = copies k (SolverSpec.feature_values data f).
Proof. unfold SolverSpec.feature_values. apply copies_map. Qed.
Lemma candidates_copies bt B B' mm k data f E : 1 <= k -> bt = IDENTITY \/ (bt = LINEAR /\ B' = B) -> candidates bt B mm data f E -> candidates bt B' mm (copies k data) f E.
Proof.
  intros K [->|[-> ->]]; cbn [candidates].
  - intros [S1 I1]. split; auto. intros x. rewrite I1, values_copies. symmetry. now apply copies_in.
  - intros [lo [hi [RG D]]]. exists lo, hi. split; auto. unfold range_of in *. destruct mm as [[mn mx]|]; auto.
    destruct RG as [[L1 L2] [G1 G2]]. unfold least, greatest. rewrite values_copies.
    split; (split; [now apply copies_in|]); intros x I; apply copies_in in I; auto.
Qed.
Lemma solvable_copies c k data labels W : 1 <= k -> solvable c data labels W -> solvable c (copies k data) (copies k labels) W.
Proof.
  intros K [A1 A2 A3 A4 A5 A6 A7]. split; auto.
  - intros r I. apply copies_in in I; auto.
  - intros E. apply A2. destruct k; [lia|]. cbn in E. now apply app_eq_nil in E.
  - rewrite !copies_length. congruence.
  - destruct (s_class c); auto. destruct A7 as [?|[?|[? A7]]]; auto. right. right. split; auto. rewrite (Permutation_length (copies_nodup k labels K)). exact A7.
Qed.

Definition times_out (k : nat) (out : sres) : sres := match out with Found f v r q => Found f v r (k * q) | NoSplit q => NoSplit (k * q) end.
Lemma exact_copied M c k data labels data' labels' W e e' out e1 : 1 <= k ->
  solvable c data labels W -> s_bin c = LINEAR \/ s_bin c = IDENTITY ->
  length labels' = length data' -> Permutation (copies k (combine data labels)) (combine data' labels') ->
  solve_exactly M c data labels 0%Qc e = Ok (out, e1) ->
  exists e1', solve_exactly M c data' labels' 0%Qc e' = Ok (times_out k out, e1') /\ e_gen e1' = e_gen e'.
Proof.
  intros K S BT LL PP H. pose proof (solvable_copies c k data labels W K S) as S'. assert (LC : length data = length labels) by (symmetry; apply S).
  set (d1 := copies k data) in *. set (l1 := copies k labels) in *. assert (LD : length d1 = k * length data) by apply copies_length.
  assert (CC : combine d1 l1 = copies k (combine data labels)) by now apply copies_combine.
  assert (G : exists e2, solve_exactly M c d1 l1 0%Qc e' = Ok (times_out k out, e2)).
  { destruct (exact_answer c data labels W S _ _ _ _ _ H) as [E [HC [HR [HB [HQ _]]]]].
    assert (HC' : forall f, f < W -> candidates (s_bin c) (nbins c d1) (s_minmax c) d1 f (E f)).
    { intros f Hf. eapply candidates_copies; [exact K| |apply HC; auto]. destruct BT as [BT|BT]; rewrite BT; [right; split; auto; unfold nbins; rewrite BT; reflexivity|now left]. }
    destruct (exact_answers c d1 l1 W S' M 0%Qc e' E HC' HB) as [out' [e1' H']].
    exists e1'. rewrite H'. f_equal. f_equal.
    destruct (exact_answer c d1 l1 W S' _ _ _ _ _ H') as [E2' [HC2 [HR2 [HB2 [HQ2 _]]]]].
    assert (EE : forall f, f < W -> E2' f = E f) by (intros f Hf; eapply candidates_unique; [|apply HC2; auto|apply HC'; auto]; auto).
    assert (RR : forall f v, reduction (impurity M c) (combine d1 l1) f v = reduction (impurity M c) (combine data labels) f v).
    { intros f v. rewrite CC. apply reduction_copies; auto. intros l. apply copies_impurity; auto. intros IC. pose proof (sv_measure _ _ _ _ S) as SM. rewrite IC in SM. destruct SM; congruence. }
    eapply right_unique; [exact HR2| |].
    - apply right_ext with (red := reduction (impurity M c) (combine data labels)) (E := E); auto. { intros f Hf. symmetry. now apply EE. }
      destruct out as [f v r q|q]; cbn in *; exact HR.
    - rewrite HQ2. assert (QQ : sres_q (times_out k out) = k * sres_q out) by (destruct out; reflexivity).
      rewrite QQ, HQ, LD, (busy_ext W E2' E EE). lia. }
  destruct G as [e2 G]. rewrite <- CC in PP. destruct (exact_perm_one M c d1 l1 data' labels' 0%Qc e' e' W (times_out k out) e2 S') as [e3 H3]; auto.
  exists e3. split; auto. eapply exact_gen; [|exact H3]. eapply solvable_perm; [auto|exact PP|exact S'].
Qed.

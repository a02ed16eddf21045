(** The vectorised branches against the loops: adding to a histogram. *)
From Coq Require Import List Arith Bool ZArith QArith Qcanon Lia Permutation.
From Verif Require Import Base Num Rng Histogram Criteria Vector Spec NumFacts ListFacts HistFacts HistAdd CritFacts HistProps HistProps2 MabMore.
Import ListNotations.
Local Open Scope nat_scope.

(** ** Counting *)
Definition cnt {A} (p : A -> bool) (l : list A) : nat := length (filter p l).
Lemma cnt_cons {A} (p : A -> bool) a l : cnt p (a :: l) = (if p a then 1 else 0) + cnt p l.
Proof. unfold cnt. cbn. destruct (p a); reflexivity. Qed.
Lemma cnt_ext {A} (p q : A -> bool) l : (forall a, In a l -> p a = q a) -> cnt p l = cnt q l.
Proof. intros H. unfold cnt. f_equal. induction l as [|a l IH]; auto. cbn. rewrite (H a) by (left; auto). rewrite IH; [reflexivity|]. intros b I. apply H. now right. Qed.
Lemma cnt_none {A} (p : A -> bool) l : (forall a, In a l -> p a = false) -> cnt p l = 0.
Proof. intros H. induction l as [|a l IH]; auto. rewrite cnt_cons, (H a) by (left; auto). apply IH. intros b I. apply H. now right. Qed.

Lemma list_sum_zero {A} (f : A -> nat) l : (forall a, In a l -> f a = 0) -> list_sum (map f l) = 0.
Proof. intros H. induction l as [|a l IH]; auto. cbn. rewrite (H a) by (left; auto). apply IH. intros b I. apply H. now right. Qed.
Lemma list_sum_one (l : list nat) x : NoDup l -> In x l -> list_sum (map (fun b => if x =? b then 1 else 0) l) = 1.
Proof.
  induction l as [|a l IH]; intros N I; [destruct I|]. inversion N; subst. cbn. destruct I as [->|I].
  - rewrite Nat.eqb_refl. rewrite list_sum_zero; auto. intros b J. destruct (Nat.eqb_spec x b); auto. congruence.
  - destruct (Nat.eqb_spec x a); [congruence|]. now apply IH.
Qed.
Lemma list_sum_plus {A} (f g : A -> nat) l : list_sum (map (fun a => f a + g a) l) = list_sum (map f l) + list_sum (map g l).
Proof. induction l as [|a l IH]; auto. cbn. fold (list_sum (map (fun a => f a + g a) l)) (list_sum (map f l)) (list_sum (map g l)). rewrite IH. lia. Qed.

(** Summing over the first coordinate. *)
Lemma cnt_by_bin (q : nat -> bool) (k : nat) n (l : list (nat * nat)) : (forall a, In a l -> fst a < n) ->
  list_sum (map (fun b => if q b then cnt (fun iy => (fst iy =? b) && (snd iy =? k)) l else 0) (seq 0 n)) = cnt (fun iy => q (fst iy) && (snd iy =? k)) l.
Proof.
  induction l as [|[i y] l IH]; intros H.
  - apply list_sum_zero. intros b _. destruct (q b); reflexivity.
  - rewrite cnt_cons. cbn [fst snd]. rewrite <- IH by (intros a I; apply H; now right).
    transitivity (list_sum (map (fun b => (if (i =? b) && (q i && (y =? k)) then 1 else 0) + (if q b then cnt (fun iy => (fst iy =? b) && (snd iy =? k)) l else 0)) (seq 0 n))).
    { f_equal. apply map_ext. intros b. destruct (Nat.eqb_spec i b) as [->|E]; destruct (q b) eqn:Q; try rewrite cnt_cons; cbn [fst snd].
      - rewrite Nat.eqb_refl. reflexivity.
      - reflexivity.
      - destruct (Nat.eqb_spec i b); [congruence|]. reflexivity.
      - reflexivity. }
    rewrite list_sum_plus. f_equal. destruct (q i && (y =? k)).
    + transitivity (list_sum (map (fun b => if i =? b then 1 else 0) (seq 0 n))).
      * f_equal. apply map_ext. intros b. now rewrite andb_true_r.
      * apply list_sum_one; [apply seq_NoDup|]. apply in_seq. specialize (H (i, y) (or_introl eq_refl)). cbn [fst] in H. lia.
    + apply list_sum_zero. intros b _. now rewrite andb_false_r.
Qed.

(** ** Rows *)
Lemma mapi_mapi {A B C} (f : nat -> B -> C) (g : nat -> A -> B) l : mapi f (mapi g l) = mapi (fun i x => f i (g i x)) l.
Proof. apply list_ext. intros i. rewrite !mapi_nth. destruct (nth_error l i); reflexivity. Qed.
Lemma mapi_ext {A B} (f g : nat -> A -> B) l : (forall i x, f i x = g i x) -> mapi f l = mapi g l.
Proof. intros H. apply list_ext. intros i. rewrite !mapi_nth. destruct (nth_error l i); cbn; auto. now rewrite H. Qed.
Lemma mapi_id {A} (f : nat -> A -> A) l : (forall i x, f i x = x) -> mapi f l = l.
Proof. intros H. apply list_ext. intros i. rewrite mapi_nth. destruct (nth_error l i); cbn; auto. now rewrite H. Qed.

Lemma scalar_fold l : forall L R, fold_left add_one l (L, R) =
  (mapi (fun b row => mapi (fun k c => c + cnt (fun iy => (fst iy <=? b) && (snd iy =? k)) l) row) L,
   mapi (fun b row => mapi (fun k c => c + cnt (fun iy => (b <? fst iy) && (snd iy =? k)) l) row) R).
Proof.
  induction l as [|[i y] l IH]; intros L R.
  - cbn. f_equal; symmetry; apply mapi_id; intros b row; apply mapi_id; intros k c; lia.
  - cbn [fold_left]. unfold add_one at 2. cbn [fst snd]. rewrite IH. unfold insert_left, insert_right, bump. rewrite !mapi_mapi. f_equal; apply mapi_ext; intros b row.
    + destruct (i <=? b) eqn:E.
      * rewrite mapi_mapi. apply mapi_ext. intros k c. rewrite cnt_cons. cbn [fst snd]. rewrite E. cbn [andb]. rewrite (Nat.eqb_sym y k). destruct (k =? y); lia.
      * apply mapi_ext. intros k c. rewrite cnt_cons. cbn [fst snd]. rewrite E. reflexivity.
    + destruct (b <? i) eqn:E.
      * rewrite mapi_mapi. apply mapi_ext. intros k c. rewrite cnt_cons. cbn [fst snd]. rewrite E. cbn [andb]. rewrite (Nat.eqb_sym y k). destruct (k =? y); lia.
      * apply mapi_ext. intros k c. rewrite cnt_cons. cbn [fst snd]. rewrite E. reflexivity.
Qed.

Lemma vec_fold l : forall L R, fold_left add_bin l (L, R) =
  (mapi (fun b row => mapi (fun k c => c + list_sum (map (fun bh => if fst bh <=? b then nth k (snd bh) 0 else 0) l)) row) L,
   mapi (fun b row => mapi (fun k c => c + list_sum (map (fun bh => if b <? fst bh then nth k (snd bh) 0 else 0) l)) row) R).
Proof.
  induction l as [|[i r] l IH]; intros L R.
  - cbn. f_equal; symmetry; apply mapi_id; intros b row; apply mapi_id; intros k c; lia.
  - cbn [fold_left]. unfold add_bin at 2. cbn [fst snd]. rewrite IH. unfold add_rows. rewrite !mapi_mapi. f_equal; apply mapi_ext; intros b row.
    + cbn [map fst snd list_sum fold_right]. destruct (i <=? b) eqn:E.
      * rewrite mapi_mapi. apply mapi_ext. intros k c. unfold list_sum. lia.
      * apply mapi_ext. intros k c. unfold list_sum. lia.
    + cbn [map fst snd list_sum fold_right]. destruct (b <? i) eqn:E.
      * rewrite mapi_mapi. apply mapi_ext. intros k c. unfold list_sum. lia.
      * apply mapi_ext. intros k c. unfold list_sum. lia.
Qed.

Lemma count_occ_cnt (l : list nat) k : count_occ Nat.eq_dec l k = cnt (fun x => x =? k) l.
Proof. induction l as [|a l IH]; auto. rewrite cnt_cons. cbn. destruct (Nat.eq_dec a k) as [->|E]; [rewrite Nat.eqb_refl; lia|]. destruct (Nat.eqb_spec a k); [congruence|]. auto. Qed.
Lemma cnt_map {A B} (g : A -> B) p l : cnt p (map g l) = cnt (fun a => p (g a)) l.
Proof. induction l as [|a l IH]; auto. cbn [map]. rewrite !cnt_cons. now rewrite IH. Qed.
Lemma cnt_filter {A} (p q : A -> bool) l : cnt p (filter q l) = cnt (fun a => q a && p a) l.
Proof. induction l as [|a l IH]; auto. cbn [filter]. rewrite cnt_cons. destruct (q a); cbn [andb]; [rewrite cnt_cons|]; now rewrite IH. Qed.
Lemma max_below (l : list nat) K : (forall y, In y l -> y < S K) -> In K l -> fold_right Nat.max 0 l = K.
Proof.
  intros H I. apply Nat.le_antisymm.
  - clear I. induction l as [|a l IH]; cbn; [lia|]. apply Nat.max_lub; [specialize (H a (or_introl eq_refl)); lia|]. apply IH. intros y J. apply H. now right.
  - induction l as [|a l IH]; [destruct I|]. cbn. destruct I as [->|I]; [lia|]. transitivity (fold_right Nat.max 0 l); [|lia]. apply IH; auto. intros y J. apply H. now right.
Qed.

Lemma bin_row_spec idx newY K b : 0 < K -> (forall y, In y newY -> y < K) ->
  exists r, bin_row idx newY K b = Ok r /\ forall k, k < K -> nth k r 0 = cnt (fun iy => (fst iy =? b) && (snd iy =? k)) (combine idx newY).
Proof.
  intros KP HY. unfold bin_row. set (sel := map snd _). destruct K as [|K]; [lia|].
  assert (S1 : forall y, In y sel -> y < S K). { intros y I. apply in_map_iff in I. destruct I as [[i y'] [<- I]]. apply filter_In in I. destruct I as [I _]. apply in_combine_r in I. now apply HY. }
  assert (MX : fold_right Nat.max 0 (sel ++ seq 0 (S K)) = K).
  { apply max_below.
    - intros y I. apply in_app_iff in I. destruct I as [I|I]; [now apply S1|]. apply in_seq in I. lia.
    - apply in_app_iff. right. apply in_seq. lia. }
  assert (BC : bincount (sel ++ seq 0 (S K)) = map (fun k => count_occ Nat.eq_dec (sel ++ seq 0 (S K)) k) (seq 0 (S K))).
  { unfold bincount. rewrite MX. destruct (sel ++ seq 0 (S K)) eqn:E; [|reflexivity]. destruct sel; discriminate. }
  rewrite BC, map_length, seq_length, Nat.eqb_refl. cbn [guard rbind]. eexists. split; [reflexivity|]. intros k KL.
  rewrite map_map. erewrite nth_indep; [|rewrite map_length, seq_length; lia]. rewrite (map_nth (fun k => Nat.pred (count_occ Nat.eq_dec (sel ++ seq 0 (S K)) k)) (seq 0 (S K)) 0 k).
  rewrite seq_nth by auto. cbn [Nat.add]. rewrite count_occ_app.
  assert (O : count_occ Nat.eq_dec (seq 0 (S K)) k = 1).
  { apply NoDup_count_occ'; [apply seq_NoDup|apply in_seq; lia]. }
  rewrite O, Nat.add_1_r. cbn [Nat.pred]. rewrite count_occ_cnt. unfold sel. now rewrite cnt_map, cnt_filter.
Qed.

(** ** The table of classes *)
Lemma as_int_nat n : as_int (rat n) = Ok (Z.of_nat n).
Proof.
  unfold as_int. assert (E : this (rat n) = inject_Z (Z.of_nat n)).
  { change (this (rat n)) with (Qred (inject_Z (Z.of_nat n))). apply Qred_identity. cbn. apply Z.gcd_1_r. }
  now rewrite E.
Qed.
Lemma wrap_in n i : i < n -> wrap n (Z.of_nat i) = Ok i.
Proof. intros L. unfold wrap. destruct (Z.leb_spec 0 (Z.of_nat i)); [|lia]. destruct (Z.ltb_spec (Z.of_nat i) (Z.of_nat n)); [|lia]. cbn. now rewrite Nat2Z.id. Qed.

Lemma fill_table (l : list (Z * nat)) : forall mp, NoDup (map fst l) -> (forall k v, In (k, v) l -> (0 <= k < Z.of_nat (length mp))%Z) ->
  exists mp', foldM (fun mp kv => do i <- wrap (length mp) (fst kv); Ok (set_nth i (snd kv) mp)) mp l = Ok mp' /\ length mp' = length mp /\
    (forall k v, In (k, v) l -> nth_error mp' (Z.to_nat k) = Some v) /\ (forall i, ~ In (Z.of_nat i) (map fst l) -> nth_error mp' i = nth_error mp i).
Proof.
  induction l as [|[k v] l IH]; intros mp N H.
  - exists mp. cbn. repeat split; auto. intros k v [].
  - inversion N as [|? ? N1 N2]; subst. cbn [fst] in N1. pose proof (H k v (or_introl eq_refl)) as K. cbn [foldM fst snd].
    assert (W : wrap (length mp) k = Ok (Z.to_nat k)). { rewrite <- (Z2Nat.id k) at 1 by lia. apply wrap_in. lia. }
    rewrite W. cbn [rbind]. destruct (IH (set_nth (Z.to_nat k) v mp) N2) as [mp' [E [L [A B]]]].
    { intros k' v' I. rewrite set_nth_length. apply H with v'. now right. }
    exists mp'. split; [exact E|]. rewrite set_nth_length in L. split; [exact L|]. split.
    + intros k' v' [I|I]; [|now apply A]. injection I as <- <-. rewrite B by (rewrite Z2Nat.id by lia; exact N1). rewrite set_nth_nth, Nat.eqb_refl. destruct (nth_error mp (Z.to_nat k)) eqn:EN; [reflexivity|]. apply nth_error_None in EN. lia.
    + intros i I. cbn [map] in I. rewrite B by (intros J; apply I; now right). destruct (Nat.eq_dec i (Z.to_nat k)) as [->|E2].
      * exfalso. apply I. left. cbn. lia.
      * rewrite set_nth_nth. destruct (Nat.eqb_spec i (Z.to_nat k)); [congruence|reflexivity].
Qed.

Lemma fold_max_ge (t : list Z) : forall k, (k <= fold_left Z.max t k)%Z /\ forall x, In x t -> (x <= fold_left Z.max t k)%Z.
Proof.
  induction t as [|a t IH]; intros k; cbn; [split; [lia|intros x []]|]. destruct (IH (Z.max k a)) as [A B]. split; [lia|]. intros x [<-|I]; [lia|now apply B].
Qed.

Lemma rat_inj n m : rat n = rat m -> n = m.
Proof. intros H. change rat with Nq in H. apply (f_equal as_int) in H. change Nq with rat in H. rewrite !as_int_nat in H. injection H as H. lia. Qed.

Lemma key_table_spec classes : classes <> [] -> NoDup classes -> (forall c, In c classes -> exists n, c = rat n) ->
  exists mp, key_table classes = Ok mp /\ forall i n, nth_error classes i = Some (rat n) -> nth_error mp n = Some i.
Proof.
  intros NE ND H.
  assert (EX : exists ns, classes = map rat ns). { clear NE ND. induction classes as [|c l IH]; [exists []; auto|]. destruct (H c (or_introl eq_refl)) as [n ->]. destruct IH as [ns ->]; [intros x I; apply H; now right|]. exists (n :: ns). reflexivity. }
  destruct EX as [ns ->]. clear H. apply NoDup_map_inv in ND.
  unfold key_table. assert (MK : mapM as_int (map rat ns) = Ok (map Z.of_nat ns)). { rewrite mapM_map. apply mapM_pure. intros a _. apply as_int_nat. }
  rewrite MK. cbn [rbind]. destruct ns as [|n0 t]; [now destruct NE|]. cbn [map]. destruct (fold_max_ge (map Z.of_nat t) (Z.of_nat n0)) as [G0 G1].
  set (sz := (fold_left Z.max (map Z.of_nat t) (Z.of_nat n0) + 1)%Z). assert (P : (0 <= sz)%Z) by (unfold sz; lia). apply Z.leb_le in P. rewrite P. cbn [guard rbind].
  change (Z.of_nat n0 :: map Z.of_nat t) with (map Z.of_nat (n0 :: t)). change (rat n0 :: map rat t) with (map rat (n0 :: t)). rewrite map_length.
  assert (FS : map fst (combine (map Z.of_nat (n0 :: t)) (seq 0 (length (n0 :: t)))) = map Z.of_nat (n0 :: t)). { apply map_fst_combine. now rewrite map_length, seq_length. }
  apply Z.leb_le in P.
  destruct (fill_table (combine (map Z.of_nat (n0 :: t)) (seq 0 (length (n0 :: t)))) (repeat 0 (Z.to_nat sz))) as [mp [E [L [A _]]]].
  - rewrite FS. apply FinFun.Injective_map_NoDup; auto. intros a b. lia.
  - intros k v I. rewrite repeat_length, Z2Nat.id by lia. apply in_combine_l in I. apply in_map_iff in I. destruct I as [n [<- I]]. split; [lia|]. unfold sz. destruct I as [<-|I]; [lia|]. specialize (G1 (Z.of_nat n) (in_map _ _ _ I)). lia.
  - exists mp. split; [exact E|]. intros i n I. rewrite <- (Nat2Z.id n). apply A. rewrite nth_error_map in I. destruct (nth_error (n0 :: t) i) as [m|] eqn:EM; [|discriminate]. assert (I' : rat m = rat n) by exact (f_equal (fun o => match o with Some x => x | None => rat m end) I). apply rat_inj in I'. subst m.
    apply nth_error_In with i. assert (i < length (n0 :: t)) by (apply nth_error_Some; congruence). apply nth_error_combine; [rewrite nth_error_map, EM; reflexivity|].
    rewrite (nth_error_nth' (seq 0 (length (n0 :: t))) 0) by now rewrite seq_length. now rewrite seq_nth.
Qed.

Lemma replace_spec classes Y newY : classes <> [] -> NoDup classes -> (forall c, In c classes -> exists n, c = rat n) ->
  mapM (fun y => opt_res (qindex y classes) ValueError) Y = Ok newY -> replace_array Y classes = Ok newY.
Proof.
  intros NE ND H M. destruct (key_table_spec classes NE ND H) as [mp [E A]]. unfold replace_array. rewrite E. cbn [rbind].
  apply mapM_Forall2 in M. apply mapM_Forall2. induction M as [|y i l l' Q _ IH]; constructor; auto. clear IH. apply opt_res_ok in Q. apply qindex_spec in Q.
  destruct (H y (nth_error_In _ _ Q)) as [n ->]. rewrite as_int_nat. cbn [rbind]. pose proof (A _ _ Q) as N.
  rewrite wrap_in by (apply nth_error_Some; congruence). cbn [rbind]. unfold nth_res. now rewrite N.
Qed.

(** ** add *)
Lemma get_bin_le ty mn mx nb edges v : length edges = nb -> get_bin ty mn mx nb edges v <= nb.
Proof.
  intros L. unfold get_bin. assert (S1 : search_index edges v <= nb). { unfold search_index. etransitivity; [|apply Nat.eq_le_incl; exact L]. rewrite <- (filter_length_split (fun e => qlt e v) edges). apply Nat.le_add_r. }
  destruct ty; auto. unfold linear_index. destruct (nb =? 1); [lia|].
  set (q := qceil _). destruct (Z.ltb_spec q 0); [lia|]. destruct (Z.ltb_spec (Z.of_nat nb - 1) q); lia.
Qed.

(** Every row of the counts has one entry per class. *)
Definition shaped (h : hist) : Prop := forall r, In r (h_left h ++ h_right h) -> length r = length (h_classes h).

Lemma vec_add_same h X Y h' : hist_add h X Y = Ok h' -> h_class h = true -> shaped h -> NoDup (h_classes h) -> (forall c, In c (h_classes h) -> exists n, c = rat n) ->
  vec_add h X Y = Ok h' /\ shaped h'.
Proof.
  intros H C SH ND NN. unfold hist_add in H. unfold vec_add. rewrite C in *.
  apply rbind_ok in H. destruct H as [fv [E1 H]]. rewrite E1. cbn [rbind]. apply rbind_ok in H. destruct H as [ed [E2 H]]. rewrite E2. cbn [rbind].
  apply rbind_ok in H. destruct H as [u1 [G1 H]]. rewrite G1. cbn [rbind]. apply rbind_ok in H. destruct H as [u2 [G2 H]]. rewrite G2. cbn [rbind].
  apply rbind_ok in H. destruct H as [u3 [G3 H]]. apply rbind_ok in H. destruct H as [newY [E3 H]]. injection H as <-.
  apply guard_ok in G1. apply andb_prop in G1. destruct G1 as [G1 G1b]. apply andb_prop in G1. destruct G1 as [G1 G1a]. apply Nat.eqb_eq in G1, G1a, G1b.
  apply guard_ok in G3. apply negb_true_iff, Nat.eqb_neq in G3.
  assert (NY : forall y, In y newY -> y < length (h_classes h)).
  { intros y I. destruct (mapM_In _ _ _ _ E3 I) as [q [_ Q]]. apply opt_res_ok in Q. apply qindex_spec in Q. apply nth_error_Some. congruence. }
  assert (NC : h_classes h <> []). { intros Z. destruct Y as [|y Y]; [cbn in G3; lia|]. cbn in E3. apply rbind_ok in E3. destruct E3 as [a [Q _]]. apply opt_res_ok in Q. rewrite Z in Q. discriminate. }
  assert (KP : 0 < length (h_classes h)) by (destruct (h_classes h); [congruence|cbn; lia]).
  rewrite (replace_spec _ _ _ NC ND NN E3). cbn [rbind].
  set (idx := map _ fv).
  destruct (mapM_total (bin_row idx newY (length (h_classes h))) (seq 0 (S (h_nb h)))) as [rows ER].
  { intros b _. destruct (bin_row_spec idx newY _ b KP NY) as [r [E _]]. eauto. }
  rewrite ER. cbn [rbind].
  assert (SB : forallb (fun r => length r =? length (h_classes h)) (h_left h ++ h_right h) = true). { apply forallb_forall. intros r I. apply Nat.eqb_eq. now apply SH. }
  rewrite SB. cbn [guard rbind]. rewrite scalar_fold, vec_fold. cbn [fst snd].
  assert (IL : forall a, In a (combine idx newY) -> fst a < S (h_nb h)).
  { intros [i y] I. apply in_combine_l in I. unfold idx in I. apply in_map_iff in I. destruct I as [v [<- _]]. cbn [fst]. apply Nat.lt_succ_r. apply get_bin_le. lia. }
  assert (SUM : forall (q : nat -> bool) k, k < length (h_classes h) ->
    list_sum (map (fun bh => if q (fst bh) then nth k (snd bh) 0 else 0) (combine (seq 0 (S (h_nb h))) rows)) = cnt (fun iy => q (fst iy) && (snd iy =? k)) (combine idx newY)).
  { intros q k KL. rewrite <- (cnt_by_bin q k (S (h_nb h)) _ IL). f_equal.
    apply mapM_Forall2 in ER. clear - ER KL KP NY. induction ER as [|b r l l' E _ IH]; auto. cbn [combine map fst snd]. rewrite IH. f_equal.
    destruct (bin_row_spec idx newY _ b KP NY) as [r' [E' A]]. rewrite E in E'. injection E' as <-. rewrite (A k KL). reflexivity. }
  assert (RW : forall (q : nat -> nat -> bool) M0, (forall r, In r M0 -> length r = length (h_classes h)) ->
    mapi (fun b row => mapi (fun k c => c + list_sum (map (fun bh => if q b (fst bh) then nth k (snd bh) 0 else 0) (combine (seq 0 (S (h_nb h))) rows))) row) M0 =
    mapi (fun b row => mapi (fun k c => c + cnt (fun iy => q b (fst iy) && (snd iy =? k)) (combine idx newY)) row) M0).
  { intros q M0 HM. apply list_ext. intros b. rewrite !mapi_nth. destruct (nth_error M0 b) as [row|] eqn:EB; cbn [option_map]; auto. f_equal.
    apply list_ext. intros k. rewrite !mapi_nth. destruct (nth_error row k) as [x|] eqn:EK; cbn [option_map]; auto. f_equal. f_equal. apply (SUM (q b)).
    rewrite <- (HM row) by (eapply nth_error_In; eauto). apply nth_error_Some. congruence. }
  split.
  - f_equal. f_equal.
    + apply (RW (fun b i => i <=? b)). intros r I. apply SH. apply in_app_iff. now left.
    + apply (RW (fun b i => b <? i)). intros r I. apply SH. apply in_app_iff. now right.
  - unfold shaped. cbn. intros r I. apply in_app_iff in I.
    destruct I as [I|I]; apply In_nth_error in I; destruct I as [b I]; rewrite mapi_nth in I.
    + destruct (nth_error (h_left h) b) as [row|] eqn:EB; [|discriminate]. injection I as <-. rewrite mapi_length. apply SH. apply in_app_iff. left. eapply nth_error_In; eauto.
    + destruct (nth_error (h_right h) b) as [row|] eqn:EB; [|discriminate]. injection I as <-. rewrite mapi_length. apply SH. apply in_app_iff. right. eapply nth_error_In; eauto.
Qed.

(** The add() calls one after the other. *)
Definition vec_add_all (h : hist) (batches : list (list (list Qc) * list Qc)) : res hist :=
  foldM (fun h b => vec_add h (fst b) (snd b)) h batches.

Lemma vec_add_all_same f uf fd cl nb mn mx ty t h0 t' batches h : new_hist true f uf fd cl nb mn mx ty t = Ok (h0, t') -> NoDup cl -> (forall c, In c cl -> exists n, c = rat n) ->
  add_all h0 batches = Ok h -> vec_add_all h0 batches = Ok h.
Proof.
  intros N ND NN. pose proof (new_hist_fields _ _ _ _ _ _ _ _ _ _ _ _ N) as FF. pose proof (new_hist_fresh _ _ _ _ _ _ _ _ _ _ _ _ N) as FR.
  assert (C : h_class h0 = true) by tauto. assert (CL : h_classes h0 = cl) by tauto.
  assert (SH : shaped h0).
  { intros r I. clear - N I. unfold new_hist in N. assert (K : forall nb e, In r (h_left (alloc_hist true f cl nb mn mx ty e) ++ h_right (alloc_hist true f cl nb mn mx ty e)) -> length r = length cl).
    { intros n e J. cbn in J. apply in_app_iff in J. destruct J as [J|J]; apply repeat_spec in J; subst r; now rewrite repeat_length. }
    destruct ty; try discriminate.
    - destruct (qeq mn mx); injection N as <- <-; [destruct I|exact (K _ _ I)].
    - apply rbind_ok in N. destruct N as [e [_ N]]. injection N as <- <-. exact (K _ _ I).
    - injection N as <- <-. exact (K _ _ I).
    - destruct (random_bin mn mx nb t) as [e t2]. injection N as <- <-. exact (K _ _ I). }
  rewrite <- CL in ND, NN. clear N FF FR CL. unfold add_all, vec_add_all. revert h0 C SH ND NN. induction batches as [|[X Y] bs IH]; intros h0 C SH ND NN H; [exact H|].
  cbn [foldM fst snd] in *. apply rbind_ok in H. destruct H as [h1 [E H]]. destruct (vec_add_same _ _ _ _ E C SH ND NN) as [-> SH1]. cbn [rbind].
  pose proof (hist_add_same _ _ _ _ E) as S. apply IH; auto.
  - assert (h_class h1 = h_class h0) by tauto. congruence.
  - assert (CC : h_classes h1 = h_classes h0) by tauto. now rewrite CC.
  - assert (CC : h_classes h1 = h_classes h0) by tauto. now rewrite CC.
Qed.

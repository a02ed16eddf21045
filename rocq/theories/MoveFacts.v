(** How a split search reacts to a change of units. *)
From Coq Require Import List Arith Bool ZArith QArith Qcanon Lia Permutation Sorted.
From Verif Require Import Base Num Rng Histogram Utils Criteria Solvers Tree Spec SolverSpec TreeSpec InvarSpec NumFacts ListFacts HistFacts HistAdd CritFacts MakeHist ExactFacts ExactTotal ExactProps.
Import ListNotations.
Local Open Scope nat_scope.

(** ** Rows *)
Lemma move_row_nth (u : units) (x : list Qc) f : nth_error (move_row u x) f = option_map (u f) (nth_error x f).
Proof.
  unfold move_row. rewrite nth_error_map. assert (G : forall (l : list Qc) f k, nth_error (combine (seq k (length l)) l) f = option_map (fun v => (k + f, v)) (nth_error l f)).
  { clear. induction l as [|a l IH]; intros f k; [now destruct f|]. destruct f as [|f]; cbn; [now rewrite Nat.add_0_r|]. rewrite IH. destruct (nth_error l f); cbn; auto. now rewrite Nat.add_succ_r. }
  rewrite G. destruct (nth_error x f); reflexivity.
Qed.
Lemma move_row_length u x : length (move_row u x) = length x.
Proof. unfold move_row. rewrite map_length, combine_length, seq_length. lia. Qed.
Lemma move_row_cell (u : units) (x : list Qc) f : f < length x -> nth f (move_row u x) 0%Qc = u f (nth f x 0%Qc).
Proof.
  intros H. destruct (nth_error x f) as [v|] eqn:E; [|apply nth_error_None in E; lia].
  rewrite (nth_error_nth x f 0%Qc E). apply nth_error_nth. now rewrite move_row_nth, E.
Qed.
Lemma move_row_same x : move_row same_units x = x.
Proof. apply list_ext. intros i. rewrite move_row_nth. now destruct (nth_error x i). Qed.

Lemma incr_le g x y : increasing g -> ((g x <= g y)%Qc <-> (x <= y)%Qc).
Proof.
  intros I. split; intros H.
  - destruct (qle_lt_dec x y) as [A|A]; auto. apply I in A. exfalso. qlra.
  - destruct (qle_lt_dec y x) as [A|A]; [|apply I in A; qlra]. assert (x = y) by now apply qle_antisym. subst. apply qle_refl.
Qed.
Lemma incr_qle g x y : increasing g -> qle (g x) (g y) = qle x y.
Proof.
  intros I. destruct (qle x y) eqn:E.
  - apply qle_spec. apply incr_le; auto. now apply qle_spec.
  - apply qle_false in E. apply qle_false. auto.
Qed.
Lemma incr_qlt g x y : increasing g -> qlt (g x) (g y) = qlt x y.
Proof.
  intros I. destruct (qlt x y) eqn:E.
  - apply qlt_spec. apply I. now apply qlt_spec.
  - apply qlt_false in E. apply qlt_false. apply incr_le; auto.
Qed.
Lemma incr_inj g x y : increasing g -> g x = g y -> x = y.
Proof. intros I E. apply qle_antisym; apply (incr_le g); auto; rewrite E; apply qle_refl. Qed.

(** ** Impurities *)
Lemma occurrences_map g c l : (forall y, In y l -> g y = g c -> y = c) -> occurrences (g c) (map g l) = occurrences c l.
Proof.
  unfold occurrences. induction l as [|a l IH]; intros H; cbn; auto.
  destruct (Qc_eq_dec a c) as [->|N].
  - destruct (Qc_eq_dec (g c) (g c)) as [_|B]; [|contradiction]. f_equal. apply IH. intros. apply H; auto. now right.
  - destruct (Qc_eq_dec (g a) (g c)) as [B|_]; [exfalso; apply N, H; auto; now left|]. apply IH. intros. apply H; auto. now right.
Qed.
Lemma fraction_map g c l : (forall y, In y l -> g y = g c -> y = c) -> fraction (g c) (map g l) = fraction c l.
Proof. intros H. unfold fraction. now rewrite occurrences_map, map_length. Qed.
Lemma nodup_map g l : (forall x y, In x l -> In y l -> g x = g y -> x = y) -> nodup Qc_eq_dec (map g l) = map g (nodup Qc_eq_dec l).
Proof.
  induction l as [|a l IH]; intros H; cbn; auto. rewrite IH by (intros; apply H; auto; now right).
  destruct (in_dec Qc_eq_dec a l) as [I|N].
  - destruct (in_dec Qc_eq_dec (g a) (map g l)) as [_|B]; auto. exfalso. apply B. now apply in_map.
  - destruct (in_dec Qc_eq_dec (g a) (map g l)) as [B|_]; auto. exfalso. apply in_map_iff in B. destruct B as [y [E I]].
    apply N. rewrite <- (H y a); auto; [now right|now left].
Qed.
Lemma gini_map g l : (forall x y, In x l -> In y l -> g x = g y -> x = y) -> gini (map g l) = gini l.
Proof.
  intros H. unfold gini. rewrite nodup_map by auto. rewrite map_map. do 2 f_equal. apply map_ext_in.
  intros c I. apply nodup_In in I. rewrite fraction_map; auto.
Qed.
Lemma entropy_map lg g l : (forall x y, In x l -> In y l -> g x = g y -> x = y) -> entropy lg (map g l) = entropy lg l.
Proof.
  intros H. unfold entropy. rewrite nodup_map by auto. rewrite map_map. f_equal. apply map_ext_in.
  intros c I. apply nodup_In in I. rewrite fraction_map; auto.
Qed.
Lemma total_scale k l : total (map (fun y => k * y)%Qc l) = (k * total l)%Qc.
Proof. induction l as [|a l IH]; cbn; [ring|]. rewrite IH. ring. Qed.
Lemma rat_S n : rat (S n) = (1 + rat n)%Qc.
Proof. change rat with Nq. rewrite Nq_S. ring. Qed.
Lemma total_affine k d l : total (map (fun y => k * y + d)%Qc l) = (k * total l + rat (length l) * d)%Qc.
Proof. induction l as [|a l IH]; [cbn; change (rat 0) with 0%Qc; ring|]. cbn [map total length]. rewrite IH, rat_S. ring. Qed.
Lemma mean_affine k d l : l <> [] -> mean (map (fun y => k * y + d)%Qc l) = (k * mean l + d)%Qc.
Proof.
  intros NE. unfold mean. rewrite total_affine, map_length. assert (rat (length l) <> 0)%Qc by (apply Nq_neq0; destruct l; [contradiction|cbn; lia]).
  field. auto.
Qed.
Lemma variance_affine k d l : variance (map (fun y => k * y + d)%Qc l) = (k * k * variance l)%Qc.
Proof.
  destruct l as [|a l]; [unfold variance; cbn; unfold Qcdiv; ring|].
  unfold variance. rewrite mean_affine by discriminate. rewrite map_map, map_length.
  rewrite (map_ext _ (fun y => (k * k) * ((y - mean (a :: l)) * (y - mean (a :: l))))%Qc) by (intros; ring).
  rewrite <- (map_map (fun y => (y - mean (a :: l)) * (y - mean (a :: l)))%Qc (fun y => k * k * y)%Qc), total_scale. unfold Qcdiv. ring.
Qed.
Lemma impurity_moved M c g s l : (s_class c = false -> s_measure c <> GINI) -> (if s_class c then s = 1%Qc /\ forall x y, In x l -> In y l -> g x = g y -> x = y
    else exists k d, k <> 0%Qc /\ s = (k * k)%Qc /\ forall y, g y = (k * y + d)%Qc) ->
  impurity M c (map g l) = (s * impurity M c l)%Qc.
Proof.
  unfold impurity. intros NG. destruct (s_class c).
  - intros [-> H]. rewrite Qcmult_1_l. destruct (s_measure c); try (now apply gini_map); now apply entropy_map.
  - intros (k & d & _ & -> & H). rewrite (map_ext g (fun y => k * y + d)%Qc) by auto. destruct (s_measure c); try apply variance_affine. now elim NG.
Qed.

(** ** Candidates and reductions *)
Definition move_pair (u : units) (g : Qc -> Qc) (p : row) : row := (move_row u (fst p), g (snd p)).
Lemma combine_moved u g data : forall labels, combine (map (move_row u) data) (map g labels) = map (move_pair u g) (combine data labels).
Proof. induction data as [|r d IH]; intros [|y l]; cbn; auto. now rewrite IH. Qed.

Lemma reduction_moved imp u g s data labels W f v : rectangular W data -> f < W -> increasing (u f) ->
  (forall l, incl l labels -> imp (map g l) = (s * imp l)%Qc) ->
  reduction imp (combine (map (move_row u) data) (map g labels)) f (u f v) = (s * reduction imp (combine data labels) f v)%Qc.
Proof.
  intros R Hf I HI. rewrite combine_moved. set (T := combine data labels).
  assert (HL : forall r, In r T -> is_left f (u f v) (move_pair u g r) = is_left f v r).
  { intros [x y] J. apply in_combine_l in J. rewrite !is_left_qle. unfold value_of, move_pair. cbn [fst snd].
    rewrite move_row_cell by (rewrite (R x J); auto). now apply incr_qle. }
  unfold reduction, left_part, right_part. rewrite !filter_map_comm, !map_length.
  rewrite (filter_ext_in (fun x => is_left f (u f v) (move_pair u g x)) (is_left f v)) by auto.
  rewrite (filter_ext_in (fun x => negb (is_left f (u f v) (move_pair u g x))) (fun r => negb (is_left f v r))) by (intros; now rewrite HL).
  assert (LB : forall T0, incl T0 T -> imp (labels_of (map (move_pair u g) T0)) = (s * imp (labels_of T0))%Qc).
  { intros T0 IN. unfold labels_of. replace (map snd (map (move_pair u g) T0)) with (map g (map snd T0)) by (rewrite !map_map; reflexivity). apply HI.
    intros y J. apply in_map_iff in J. destruct J as [[x y'] [<- J]]. apply IN in J. now apply in_combine_r in J. }
  rewrite !LB; [unfold Qcdiv; ring| | |]; try apply incl_refl; intros r J; now apply filter_In in J.
Qed.

Lemma sorted_map_incr g l : increasing g -> StronglySorted Qclt l -> StronglySorted Qclt (map g l).
Proof.
  intros HK. induction 1 as [|x l S IH F]; cbn; constructor; auto.
  apply Forall_forall. intros y I. apply in_map_iff in I. destruct I as [z [<- I]]. rewrite Forall_forall in F. auto.
Qed.
Definition move_ranges (u : units) (mm : option (list Qc * list Qc)) := option_map (fun p : list Qc * list Qc => (move_row u (fst p), move_row u (snd p))) mm.
Lemma moved_values u data f W : rectangular W data -> f < W ->
  SolverSpec.feature_values (map (move_row u) data) f = map (u f) (SolverSpec.feature_values data f).
Proof.
  intros R Hf. unfold SolverSpec.feature_values. rewrite !map_map. apply map_ext_in. intros r I. apply move_row_cell. rewrite (R r I). auto.
Qed.
Lemma candidates_moved bt B mm u data f E W : rectangular W data -> f < W -> increasing (u f) ->
  bt = IDENTITY \/ (bt = LINEAR /\ exists k d, forall x, u f x = (k * x + d)%Qc) ->
  candidates bt B mm data f E -> candidates bt B (move_ranges u mm) (map (move_row u) data) f (map (u f) E).
Proof.
  intros R Hf HA BT. pose proof (moved_values u data f W R Hf) as RV.
  destruct BT as [->|[-> (k & d & KD)]]; cbn [candidates].
  - rewrite RV. intros [S1 I1]. split; [now apply sorted_map_incr|]. intros x. rewrite !in_map_iff. split; intros [y [Q I]]; exists y; split; auto; now apply I1.
  - intros [lo [hi [RG D]]]. exists (u f lo), (u f hi). split.
    + unfold range_of in *. destruct mm as [[mn mx]|]; cbn [move_ranges option_map fst snd].
      * destruct RG as [A1 A2]. rewrite !move_row_nth, A1, A2. auto.
      * destruct RG as [[L1 L2] [G1 G2]]. unfold least, greatest. rewrite RV.
        split; (split; [apply in_map_iff; eauto|]); intros x I; apply in_map_iff in I; destruct I as [y [<- I]]; apply incr_le; auto.
    + destruct D as [[-> ->]|[N ->]]; [left; auto|right]. split.
      * intros Q. apply N. eapply incr_inj; eauto.
      * rewrite map_map. apply map_ext. intros b. rewrite !KD. ring.
Qed.

Definition moved_out (u : units) (s : Qc) (out : sres) : sres :=
  match out with Found f v r q => Found f (u f v) (move_x s r) q | NoSplit q => NoSplit q end.

Lemma nodup_map_le g l : length (nodup Qc_eq_dec (map g l)) <= length (nodup Qc_eq_dec l).
Proof.
  rewrite <- (map_length g (nodup Qc_eq_dec l)). apply NoDup_incl_length; [apply NoDup_nodup|].
  intros x I. apply nodup_In in I. apply in_map_iff in I. destruct I as [y [<- I]]. apply in_map. now apply nodup_In.
Qed.

Lemma solvable_moved c c' data labels W u g :
  solvable c data labels W -> (forall f, f < W -> increasing (u f)) ->
  s_class c' = s_class c -> s_measure c' = s_measure c -> s_bin c' = s_bin c -> s_nb c' = s_nb c -> s_dd c' = s_dd c ->
  s_minmax c' = move_ranges u (s_minmax c) ->
  (match s_minmax c with None => True | Some (mn, mx) => length mn = W /\ length mx = W end) ->
  solvable c' (map (move_row u) data) (map g labels) W.
Proof.
  intros [A1 A2 A3 A4 A5 A6 A7] HI E1 E2 E3 E4 E5 E6 MW. split.
  - intros r I. apply in_map_iff in I. destruct I as [r' [<- I]]. rewrite move_row_length. auto.
  - destruct data; [contradiction|discriminate].
  - now rewrite !map_length.
  - now rewrite E3, E4.
  - rewrite E6. destruct (s_minmax c) as [[mn mx]|]; cbn [move_ranges option_map fst snd]; auto. rewrite !move_row_length. destruct A5 as [B1 [B2 B3]]. split; auto. split; auto.
    intros f x y. rewrite !move_row_nth. destruct (nth_error mn f) as [x0|] eqn:N1; [|discriminate]. destruct (nth_error mx f) as [y0|] eqn:N2; [|discriminate].
    cbn [option_map]. intros Q1 Q2. assert (u f x0 = x) by congruence. assert (u f y0 = y) by congruence. subst x y.
    apply incr_le; [|eauto]. apply HI. assert (f < length mn) by (apply nth_error_Some; congruence). lia.
  - now rewrite E5.
  - rewrite E1, E2. destruct (s_class c); auto. destruct A7 as [?|[?|[? A7]]]; auto. right. right. split; auto.
    eapply Nat.le_trans; [apply nodup_map_le|auto].
Qed.

Lemma exact_gen c data labels W M mir e out e1 : solvable c data labels W -> solve_exactly M c data labels mir e = Ok (out, e1) -> e_gen e1 = e_gen e.
Proof. intros S H. destruct (exact_answer c data labels W S _ _ _ _ _ H) as (E & _ & _ & _ & _ & t & ->). reflexivity. Qed.

Lemma exact_moved M c c' data labels data' labels' W u g s e e' out e1 :
  solvable c data labels W -> s_bin c = LINEAR \/ s_bin c = IDENTITY -> rescaling (s_bin c) W u -> (0 < s)%Qc ->
  s_class c' = s_class c -> s_measure c' = s_measure c -> s_bin c' = s_bin c -> s_nb c' = s_nb c -> s_dd c' = s_dd c ->
  s_minmax c' = move_ranges u (s_minmax c) ->
  (match s_minmax c with None => True | Some (mn, mx) => length mn = W /\ length mx = W end) ->
  length labels' = length data' -> Permutation (map (move_pair u g) (combine data labels)) (combine data' labels') ->
  (forall l, incl l labels -> impurity M c (map g l) = (s * impurity M c l)%Qc) ->
  solve_exactly M c data labels 0%Qc e = Ok (out, e1) ->
  e_gen e1 = e_gen e /\ exists e1', solve_exactly M c' data' labels' 0%Qc e' = Ok (moved_out u s out, e1') /\ e_gen e1' = e_gen e'.
Proof.
  intros S BT RS SP E1 E2 E3 E4 E5 E6 MW LL PP HI H. split; [eapply exact_gen; eauto|].
  pose proof (solvable_moved c c' data labels W u g S (fun f Hf => proj1 (RS f Hf)) E1 E2 E3 E4 E5 E6 MW) as S'.
  set (d1 := map (move_row u) data) in *. set (l1 := map g labels) in *. assert (LD : length d1 = length data) by apply map_length.
  assert (G : exists e2, solve_exactly M c' d1 l1 0%Qc e' = Ok (moved_out u s out, e2)).
  { destruct (exact_answer c data labels W S _ _ _ _ _ H) as [E [HC [HR [HB [HQ _]]]]]. pose proof (sv_rect _ _ _ _ S) as R.
    assert (NBE : nbins c' d1 = nbins c data) by (unfold nbins; now rewrite LD, E3, E4).
    set (E' := fun f => map (u f) (E f)).
    assert (HC' : forall f, f < W -> candidates (s_bin c') (nbins c' d1) (s_minmax c') d1 f (E' f)).
    { intros f Hf. rewrite NBE, E3, E6. destruct (RS f Hf) as [I1 I2]. eapply candidates_moved; eauto. destruct BT as [BT|BT]; auto. }
    assert (BE : busy_features W E' = busy_features W E) by (apply filter_ext; intros f; unfold E'; destruct (E f); reflexivity).
    destruct (exact_answers c' d1 l1 W S' M 0%Qc e' E' HC') as [out' [e1' H']]; [now rewrite BE|].
    exists e1'. rewrite H'. f_equal. f_equal.
    destruct (exact_answer c' d1 l1 W S' _ _ _ _ _ H') as [E2' [HC2 [HR2 [HB2 [HQ2 _]]]]].
    assert (EE : forall f, f < W -> E2' f = E' f) by (intros f Hf; eapply candidates_unique; [|apply HC2; auto|apply HC'; auto]; rewrite E3; auto).
    assert (IE : impurity M c' = impurity M c) by (unfold impurity; now rewrite E1, E2).
    assert (RR : forall f v, f < W -> reduction (impurity M c') (combine d1 l1) f (u f v) = (s * reduction (impurity M c) (combine data labels) f v)%Qc).
    { intros f v Hf. rewrite IE. eapply reduction_moved; eauto. now apply RS. }
    eapply right_unique; [exact HR2| |].
    - apply right_ext with (red := reduction (impurity M c') (combine d1 l1)) (E := E'); auto. { intros f Hf. symmetry. now apply EE. }
      destruct out as [f v r q|q]; cbn in *.
      + destruct HR as [Hf [b [N [-> [M1 H5]]]]]. split; auto. exists b. rewrite RR by auto. split. { unfold E'. rewrite nth_error_map, N. reflexivity. }
        split; auto. split; [qnra|]. intros f' b' v' Hf' N'. unfold E' in N'. rewrite nth_error_map in N'. destruct (nth_error (E f') b') as [w|] eqn:Nw; [|discriminate].
        injection N' as <-. rewrite RR by auto. destruct (H5 f' b' w Hf' Nw) as [T1 T2]. split; [qnra|]. intros Q. apply T2.
        assert (s * (reduction (impurity M c) (combine data labels) f' w - reduction (impurity M c) (combine data labels) f v) = 0)%Qc as Z by (rewrite Qcmult_comm in Q; rewrite (Qcmult_comm s) in Q; clear - Q; replace (s * (reduction (impurity M c) (combine data labels) f' w - reduction (impurity M c) (combine data labels) f v))%Qc with (reduction (impurity M c) (combine data labels) f' w * s - reduction (impurity M c) (combine data labels) f v * s)%Qc by ring; rewrite Q; ring).
        apply qmult_eq_0 in Z. destruct Z; qlra.
      + intros f' v' Hf' I. unfold E' in I. apply in_map_iff in I. destruct I as [w [<- I]]. rewrite RR by auto. specialize (HR f' w Hf' I). qnra.
    - rewrite HQ2. assert (QQ : sres_q (moved_out u s out) = sres_q out) by (destruct out; reflexivity).
      rewrite QQ, HQ, LD, (busy_ext W E2' E' EE), BE. reflexivity. }
  destruct G as [e2 G]. destruct (exact_perm_one M c' d1 l1 data' labels' 0%Qc e' e' W (moved_out u s out) e2 S') as [e3 H3]; auto.
  { now rewrite E3. } { unfold d1, l1. now rewrite combine_moved. }
  exists e3. split; auto. eapply exact_gen; [|exact H3]. eapply solvable_perm; [auto| |exact S']. unfold d1, l1. now rewrite combine_moved.
Qed.

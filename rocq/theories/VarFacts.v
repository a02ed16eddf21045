(** The sampling variances reported with the impurities. *)
From Coq Require Import List Arith Bool ZArith QArith Qcanon Lia Permutation.
From Verif Require Import Base Num Rng Histogram Criteria Samples Spec VarSpec NumFacts ListFacts HistFacts HistAdd CritFacts HistProps HistProps2.
Import ListNotations.
Local Open Scope nat_scope.

Lemma class_probs_fraction cl ls : ls <> [] -> class_probs (class_counts cl ls) (length ls) = map (fun c => fraction c ls) cl.
Proof.
  intros NE. unfold class_probs, class_counts. rewrite map_map. apply map_ext. intros c. cbn [xdiv].
  destruct (qeq (Nq (length ls)) 0) eqn:E.
  - apply qeq_spec in E. exfalso. revert E. apply Nq_neq0. destruct ls; [contradiction|cbn; lia].
  - reflexivity.
Qed.

Lemma prob_var_fin pop n p : 0 < n -> fit_pop pop n -> prob_var pop n p = Fin (p * (1 - p) / rat n * correction pop n)%Qc.
Proof.
  intros Hn Hp. unfold prob_var. cbn [xdiv]. change (rat n) with (Nq n).
  destruct (qeq (Nq n) 0) eqn:E; [apply qeq_spec in E; now apply Nq_neq0 in E|].
  destruct pop as [N|]; cbn [correction].
  - cbn in Hp. rewrite !Zq_minus. change (Zq (Z.of_nat N)) with (rat N). change (Zq (Z.of_nat n)) with (rat n). change (Zq 1) with 1%Qc.
    destruct (qeq (rat N - 1) 0) eqn:E'; [|reflexivity]. exfalso. apply qeq_spec in E'.
    assert ((Nq 1 < Nq N)%Qc) by (apply Nq_lt; lia). rewrite Nq_1 in H. change (rat N) with (Nq N) in E'. qlra.
  - f_equal. ring.
Qed.

Lemma last_map {A B} (g : A -> B) l d d' : l <> [] -> last (map g l) d = g (last l d').
Proof. induction l as [|a [|b l] IH]; intros H; [contradiction|reflexivity|]. cbn [map] in *. change (last (map g (b :: l)) d = g (last (b :: l) d')). apply IH. discriminate. Qed.
Lemma removelast_map {A B} (g : A -> B) l : removelast (map g l) = map g (removelast l).
Proof. induction l as [|a [|b l] IH]; auto. cbn [map] in *. change (g a :: removelast (map g (b :: l)) = g a :: map g (removelast (b :: l))). now f_equal. Qed.

Lemma xsum_fin {A} (F : A -> Qc) k l : xsum (map (fun x => Fin (F x * k)%Qc) l) = Fin (total (map F l) * k)%Qc.
Proof.
  induction l as [|a l IH]; cbn [map xsum fold_right total].
  - f_equal. ring.
  - change (fold_right xadd (Fin 0) (map (fun x => Fin (F x * k)%Qc) l)) with (xsum (map (fun x => Fin (F x * k)%Qc) l)). rewrite IH. cbn [xadd]. f_equal. ring.
Qed.

(** What get_gini reports, for any number of classes. *)
Lemma gini_var_separate cl ls pop g v : cl <> [] -> ls <> [] -> fit_pop pop (length ls) ->
  get_gini (class_counts cl ls) pop (Some (length ls)) = Ok (g, v) -> v = Fin (separate_variance cl ls pop).
Proof.
  intros NC NE FP H. assert (Hn : 0 < length ls) by (destruct ls; [contradiction|cbn; lia]).
  unfold get_gini in H. cbn [opt_n] in H. rewrite class_probs_fraction in H by auto.
  set (p := map (fun c => fraction c ls) cl) in *. assert (NP : p <> []) by (destruct cl; [contradiction|discriminate]).
  assert (E : v = xsum (map (fun x => let d := (- (1 + 1) * x + (1 + 1) * last p 0)%Qc in xmul (Fin (d * d)%Qc) (prob_var pop (length ls) x)) (removelast p))).
  { destruct p; [contradiction|]. apply ok_pair_inv in H. destruct H as [_ <-]. reflexivity. }
  rewrite E. unfold p. rewrite (last_map _ _ _ 0%Qc), removelast_map, map_map by auto. unfold separate_variance. cbv zeta.
  rewrite <- xsum_fin. f_equal. apply map_ext. intros c. rewrite prob_var_fin by auto. cbn [xmul]. f_equal.
  change (rat 2) with (1 + 1)%Qc. ring.
Qed.

(** Sums over two classes. *)
Lemma total_two (g : Qc -> Qc) c0 c1 ls : c0 <> c1 -> incl ls [c0; c1] ->
  total (map g ls) = (rat (occurrences c0 ls) * g c0 + rat (occurrences c1 ls) * g c1)%Qc.
Proof.
  intros N. change rat with Nq. induction ls as [|y ls IH]; intros I.
  - cbn. rewrite Nq_0. ring.
  - cbn [map total]. rewrite IH by (intros x J; apply I; now right). rewrite !occurrences_cons, !Nq_plus.
    destruct (I y ltac:(now left)) as [<-|[<-|[]]].
    + rewrite qeq_refl. rewrite (proj2 (qeq_false c0 c1) N). rewrite Nq_1, Nq_0. ring.
    + rewrite qeq_refl. rewrite (proj2 (qeq_false c1 c0)) by congruence. rewrite Nq_1, Nq_0. ring.
Qed.
Lemma two_counts c0 c1 ls : c0 <> c1 -> incl ls [c0; c1] -> (rat (occurrences c0 ls) + rat (occurrences c1 ls) = rat (length ls))%Qc.
Proof.
  intros N I. assert (ND : NoDup [c0; c1]) by (repeat constructor; cbn; intuition congruence).
  pose proof (sum_class_counts _ _ ND I) as S. cbn in S. change rat with Nq. rewrite <- Nq_plus. f_equal. lia.
Qed.

Lemma two_class_variance (g : Qc -> Qc) c0 c1 ls : c0 <> c1 -> incl ls [c0; c1] -> ls <> [] ->
  variance (map g ls) = (fraction c0 ls * (1 - fraction c0 ls) * ((g c1 - g c0) * (g c1 - g c0)))%Qc.
Proof.
  intros N I NE. unfold variance, mean. rewrite map_length, map_map. pose proof (two_counts _ _ _ N I) as E.
  set (m := (total (map g ls) / rat (length ls))%Qc). assert (M : m = (total (map g ls) / rat (length ls))%Qc) by reflexivity. clearbody m.
  rewrite (total_two g c0 c1) in M by auto. rewrite (total_two _ c0 c1) by auto. unfold fraction.
  set (a := rat (occurrences c0 ls)) in *. set (b := rat (occurrences c1 ls)) in *.
  assert (N0 : rat (length ls) <> 0%Qc) by (apply Nq_neq0; destruct ls; [contradiction|cbn; lia]). set (n := rat (length ls)) in *.
  clearbody a b n. subst m n. field. exact N0.
Qed.

Lemma separate_two c0 c1 ls pop : c0 <> c1 -> incl ls [c0; c1] -> ls <> [] -> separate_variance [c0; c1] ls pop = gini_variance ls pop.
Proof.
  intros N I NE. unfold separate_variance, gini_variance, influence_variance. cbn [last removelast map total]. cbv zeta.
  rewrite (two_class_variance _ c0 c1) by auto. unfold Qcdiv. ring.
Qed.

Lemma gini_var_two c0 c1 ls pop : c0 <> c1 -> incl ls [c0; c1] -> ls <> [] -> fit_pop pop (length ls) ->
  exists g, get_gini (class_counts [c0; c1] ls) pop (Some (length ls)) = Ok (g, Fin (gini_variance ls pop)).
Proof.
  intros N I NE FP. destruct (get_gini_ok (class_counts [c0; c1] ls) pop (Some (length ls)) ltac:(discriminate)) as (g & v & E).
  exists g. rewrite E. do 2 f_equal. rewrite <- (separate_two c0 c1) by auto. eapply gini_var_separate; eauto. discriminate.
Qed.

(** Signs. *)
Lemma correction_nonneg pop n : match pop with None => True | Some N => 2 <= N /\ n <= N end -> (0 <= correction pop n)%Qc.
Proof.
  destruct pop as [N|]; cbn; [|intros _; discriminate]. intros [H1 H2]. change rat with Nq. rewrite <- Nq_1, <- !Nq_minus by lia. apply qdiv_le_0; [apply Nq_nonneg|apply Nq_pos; lia].
Qed.
Lemma total_nonneg {A} (g : A -> Qc) l : (forall x, In x l -> (0 <= g x)%Qc) -> (0 <= total (map g l))%Qc.
Proof. induction l as [|a l IH]; intros H; [discriminate|]. cbn [map total]. specialize (H a ltac:(now left)) as H1. specialize (IH ltac:(intros x I; apply H; now right)). qlra. Qed.
Lemma separate_nonneg cl ls pop : ls <> [] -> match pop with None => True | Some N => 2 <= N /\ length ls <= N end -> (0 <= separate_variance cl ls pop)%Qc.
Proof.
  intros NE P. apply qmult_le_0; [|now apply correction_nonneg]. apply total_nonneg. intros c _. cbv zeta. apply qmult_le_0; [apply qsquare_nonneg|].
  apply qdiv_le_0; [|apply Nq_pos; destruct ls; [contradiction|cbn; lia]]. pose proof (fraction_range c ls) as [F1 F2]. apply qmult_le_0; [auto|qlra].
Qed.
Lemma fraction_pure c ls c' : ls <> [] -> (forall y, In y ls -> y = c) -> fraction c' ls = (if Qc_eq_dec c' c then 1 else 0)%Qc.
Proof.
  intros NE P. destruct (Qc_eq_dec c' c) as [->|N].
  - unfold fraction. replace (occurrences c ls) with (length ls). { unfold Qcdiv. apply Qcmult_inv_r. apply Nq_neq0. destruct ls; [contradiction|cbn; lia]. }
    clear NE. unfold occurrences. induction ls as [|y ls IH]; auto. cbn [count_occ length]. rewrite (P y ltac:(now left)). destruct (Qc_eq_dec c c); [|contradiction]. f_equal. apply IH. intros z I. apply P. now right.
  - apply fraction_zero. intros I. apply N. auto.
Qed.
Lemma separate_pure cl ls pop c : ls <> [] -> (forall y, In y ls -> y = c) -> separate_variance cl ls pop = 0%Qc.
Proof.
  intros NE P. unfold separate_variance. replace (total _) with 0%Qc; [ring|]. symmetry. generalize (removelast cl). intros l. induction l as [|d l IH]; auto. cbn [map total]. cbv zeta. rewrite IH.
  rewrite (fraction_pure c ls d) by auto. unfold Qcdiv. destruct (Qc_eq_dec d c); ring.
Qed.

Lemma separate_depends_on_order : exists ls cl cl' g v g' v', Permutation cl cl' /\ NoDup cl /\ incl ls cl /\ ls <> [] /\
  get_gini (class_counts cl ls) None (Some (length ls)) = Ok (g, Fin v) /\ get_gini (class_counts cl' ls) None (Some (length ls)) = Ok (g', Fin v') /\
  v = gini_variance ls None /\ v' <> gini_variance ls None.
Proof.
  exists [z 0; z 0; z 1; z 2], [z 0; z 1; z 2], [z 1; z 2; z 0]. do 4 eexists. split; [|split; [|split; [|split; [discriminate|]]]].
  - apply (Permutation_app_comm [z 0] [z 1; z 2]).
  - repeat constructor; cbn; intros I; repeat (destruct I as [I|I]; [discriminate I|]); destruct I.
  - intros y I. repeat (destruct I as [<-|I]; [cbn; tauto|]). destruct I.
  - split; [vm_compute; reflexivity|]. split; [vm_compute; reflexivity|]. split.
    + apply Qc_is_canon. vm_compute. reflexivity.
    + intros E. apply (f_equal this) in E. vm_compute in E. discriminate E.
Qed.

(** Entropy, for the two classes the code can handle. *)
Lemma entropy_var_two M c0 c1 ls pop : c0 <> c1 -> incl ls [c0; c1] -> ls <> [] -> fit_pop pop (length ls) ->
  exists g, get_entropy M (class_counts [c0; c1] ls) pop (Some (length ls)) = Ok (g, Fin (entropy_variance (m_log M) ls pop)).
Proof.
  intros N I NE FP. assert (Hn : 0 < length ls) by (destruct ls; [contradiction|cbn; lia]). unfold get_entropy. cbn [opt_n]. rewrite class_probs_fraction by auto.
  cbn [map]. eexists. f_equal. f_equal. rewrite !prob_var_fin by auto. cbn [xmul xadd]. f_equal. unfold entropy_variance, influence_variance.
  rewrite (two_class_variance _ c0 c1) by auto. assert (S : (fraction c0 ls + fraction c1 ls = 1)%Qc).
  { pose proof (two_counts _ _ _ N I) as E. unfold fraction. assert (Z : rat (length ls) <> 0%Qc) by now apply Nq_neq0. rewrite <- E in *. field. exact Z. }
  pose proof (fraction_range c0 ls) as [A1 A2]. pose proof (fraction_range c1 ls) as [B1 B2].
  set (p := fraction c0 ls) in *. set (q := fraction c1 ls) in *. clearbody p q. unfold xlog.
  rewrite (proj2 (qlt_false p 0)), (proj2 (qlt_false q 0)) by auto.
  destruct (qeq p 0) eqn:E0; [apply qeq_spec in E0; subst p; unfold Qcdiv; ring|]. destruct (qeq q 0) eqn:E1.
  - apply qeq_spec in E1. assert (p = 1%Qc) by qlra. subst p q. unfold Qcdiv. ring.
  - cbn [nan_to_num]. unfold Qcdiv. ring.
Qed.

(** Mean squared error. *)
Lemma Nq_diff_neq N k : k < N -> (Nq N - Nq k)%Qc <> 0%Qc.
Proof. intros H. rewrite <- Nq_minus by lia. apply Nq_neq0. lia. Qed.
Lemma xdiv_fin a b : b <> 0%Qc -> xdiv (Fin a) (Fin b) = Fin (a / b)%Qc.
Proof. intros H. cbn. now rewrite (proj2 (qeq_false b 0) H). Qed.
Lemma mse_var_none ls : 2 <= length ls -> get_mse (pile_of ls) None = Ok (spread_estimate ls None, spread_variance ls None).
Proof.
  intros H. unfold get_mse. cbn [pile_of p_n p_var]. assert (N1 := Nq_diff_neq (length ls) 1 ltac:(lia)). rewrite Nq_1 in N1. assert (N0 := Nq_neq0 (length ls) ltac:(lia)).
  rewrite !xdiv_fin by auto. cbn [nan_to_num xsub xopp xadd]. rewrite xdiv_fin by auto. cbn [nan_to_num]. unfold spread_variance, spread_estimate. cbv zeta. change rat with Nq.
  change (Nq 2) with (1 + 1)%Qc. f_equal. f_equal. set (n := Nq (length ls)) in *. clearbody n. field. auto.
Qed.
Lemma qmult_neq a b : a <> 0%Qc -> b <> 0%Qc -> (a * b)%Qc <> 0%Qc.
Proof. intros A B E. apply qmult_eq_0 in E. tauto. Qed.
Lemma mse_var_pop ls N : 2 <= length ls -> length ls <= N -> 4 <= N -> get_mse (pile_of ls) (Some N) = Ok (spread_estimate ls (Some N), spread_variance ls (Some N)).
Proof.
  intros H1 H2 H3. unfold get_mse. cbn [pile_of p_n p_var]. rewrite (proj2 (Nat.leb_le _ _) H2). cbn [guard rbind].
  assert (N1 := Nq_diff_neq (length ls) 1 ltac:(lia)). rewrite Nq_1 in N1. assert (N0 := Nq_neq0 (length ls) ltac:(lia)).
  assert (M0 := Nq_neq0 N ltac:(lia)). assert (M1 := Nq_diff_neq N 1 ltac:(lia)). rewrite Nq_1 in M1. assert (M2 := Nq_diff_neq N 2 ltac:(lia)). assert (M3 := Nq_diff_neq N 3 ltac:(lia)).
  change (Nq 2) with (1 + 1)%Qc in M2. change (Nq 3) with (1 + 1 + 1)%Qc in M3. rewrite !xdiv_fin by auto using qmult_neq. cbn [nan_to_num xopp xmul xadd].
  unfold spread_variance, spread_estimate. cbv zeta. change rat with Nq. change (Nq 2) with (1 + 1)%Qc. change (Nq 3) with (1 + 1 + 1)%Qc.
  set (n := Nq (length ls)) in *. set (K := Nq N) in *. clearbody n K. f_equal. f_equal; field; repeat split; auto.
Qed.

(** The variance of the estimate is never negative, and zero when the whole population was seen. *)
Lemma spread_variance_sign ls pop : 2 <= length ls -> match pop with None => True | Some N => 4 <= N /\ length ls <= N end -> (0 <= spread_variance ls pop)%Qc.
Proof.
  intros H P. unfold spread_variance. destruct pop as [N|]; cbv zeta; change rat with Nq.
  - destruct P as [P1 P2]. set (s := spread_estimate ls (Some N)). clearbody s. set (n := length ls) in *. clearbody n.
    assert (A1 : (Nq 2 <= Nq n)%Qc) by now apply Nq_le. assert (A2 : (Nq n <= Nq N)%Qc) by now apply Nq_le. assert (A3 : (Nq 4 <= Nq N)%Qc) by now apply Nq_le.
    change (Nq 2) with (1 + 1)%Qc in *. change (Nq 3) with (1 + 1 + 1)%Qc in *. change (Nq 4) with (1 + 1 + 1 + 1)%Qc in *. set (a := Nq n) in *. set (b := Nq N) in *. clearbody a b.
    apply qdiv_le_0.
    + apply qmult_le_0; [apply qmult_le_0; [discriminate|apply qsquare_nonneg]|]. apply qmult_le_0; [apply qmult_le_0; qlra|].
      assert (0 <= (a - (1 + 1)) * (b * b - (1 + 1 + 1) * b + (1 + 1 + 1)))%Qc by (apply qmult_le_0; [qlra|]; qnra). qnra.
    + repeat apply qmult_lt_0; qlra.
  - assert (A1 : (Nq 2 <= Nq (length ls))%Qc) by now apply Nq_le. change (Nq 2) with (1 + 1)%Qc in *. apply qdiv_le_0; [|qlra]. apply qmult_le_0; [discriminate|apply qsquare_nonneg].
Qed.
Lemma spread_variance_whole ls : spread_variance ls (Some (length ls)) = 0%Qc.
Proof. unfold spread_variance. cbv zeta. unfold Qcdiv. ring. Qed.
Lemma spread_estimate_whole ls : 2 <= length ls -> spread_estimate ls (Some (length ls)) = variance ls.
Proof.
  intros H. unfold spread_estimate. change rat with Nq. assert (N1 := Nq_diff_neq (length ls) 1 ltac:(lia)). rewrite Nq_1 in N1. assert (N0 := Nq_neq0 (length ls) ltac:(lia)). field. auto.
Qed.

(** ** The variance of an impurity change *)
Lemma side_pop_same pop k n : side_size pop k n = side_population pop k n.
Proof. reflexivity. Qed.

Lemma class_change M m h edges T bins pop irs vs i b vv e (V : list Qc -> option nat -> Qc) :
  h_class h = true -> class_inv h edges T -> NoDup (h_classes h) -> incl (labels_of T) (h_classes h) ->
  (forall ls p g v, ls <> [] -> incl ls (h_classes h) -> fit_pop p (length ls) -> class_impurity M m (class_counts (h_classes h) ls) p (length ls) = Ok (g, v) -> v = Fin (V ls p)) ->
  get_impurity_reductions M m h bins pop = Ok (irs, vs) ->
  nth_error bins i = Some b -> nth_error vs i = Some vv -> nth_error edges b = Some e ->
  let L := left_part (h_feat h) e T in let R := right_part (h_feat h) e T in
  L <> [] -> R <> [] -> fit_pop pop (length T) -> fit_pop (side_population pop (length L) (length T)) 0 -> fit_pop (side_population pop (length R) (length T)) 0 ->
  vv = Fin (change_variance V T (h_feat h) e pop).
Proof.
  intros C [IL IR] ND IN HV H Hb Hv He L R NL NR FT FL FR. unfold get_impurity_reductions in H. rewrite C in H.
  apply rbind_ok in H. destruct H as [[] [G H]].
  apply rbind_ok in H. destruct H as [l0 [EL0 H]].
  apply rbind_ok in H. destruct H as [r0 [ER0 H]].
  apply rbind_ok in H. destruct H as [sides [ES H]].
  apply nth_res_ok in EL0. apply nth_res_ok in ER0.
  rewrite IL in EL0. rewrite IR in ER0. unfold lcounts in EL0. unfold rcounts in ER0.
  rewrite nth_error_map in EL0, ER0.
  destruct (nth_error edges 0) as [e0|] eqn:E0; [|discriminate]. cbn in EL0, ER0.
  injection EL0 as <-. injection ER0 as <-.
  set (cl := h_classes h) in *. set (f := h_feat h) in *.
  assert (IL' : forall e, incl (labels_of (left_part f e T)) cl) by (intros; eapply incl_tran; [apply left_part_incl|auto]).
  assert (IR' : forall e, incl (labels_of (right_part f e T)) cl) by (intros; eapply incl_tran; [apply right_part_incl|auto]).
  rewrite !sum_class_counts, !labels_length, parts_length in ES by auto.
  assert (LN : forall U : table, U <> [] -> labels_of U <> []) by (intros [|u U] NU; [contradiction|discriminate]).
  destruct (mapM_nth' _ _ _ _ _ ES Hb) as [s [Hs K]].
  apply rbind_ok in K. destruct K as [l [K1 K]].
  apply rbind_ok in K. destruct K as [r [K2 K]].
  apply nth_res_ok in K1. apply nth_res_ok in K2.
  rewrite IL in K1. rewrite IR in K2. unfold lcounts in K1. unfold rcounts in K2.
  rewrite nth_error_map, He in K1. rewrite nth_error_map, He in K2. cbn in K1, K2.
  injection K1 as <-. injection K2 as <-. rewrite !side_pop_same in K. rewrite !sum_class_counts, !labels_length in K by auto.
  apply rbind_ok in K. destruct K as [[] [_ K]].
  apply rbind_ok in K. destruct K as [[gl vl] [K1 K]].
  apply rbind_ok in K. destruct K as [[gr vr] [K2 K]].
  rewrite <- (labels_length (left_part f e T)) in K1 at 2. rewrite <- (labels_length (right_part f e T)) in K2 at 2.
  apply HV in K1; [|apply LN, NL|apply IL'|exact FL]. apply HV in K2; [|apply LN, NR|apply IR'|exact FR]. subst vl vr. injection K as <-.
  assert (LAST : forall ab n, In (ab, n) sides -> n = length T).
  { intros ab n I. apply In_nth_error in I. destruct I as [j I].
    destruct (mapM_nth _ _ _ _ _ ES I) as [b' [Hb' K]].
    apply rbind_ok in K. destruct K as [l [K1 K]].
    apply rbind_ok in K. destruct K as [r [K2 K]].
    apply nth_res_ok in K1. apply nth_res_ok in K2.
    rewrite IL in K1. rewrite IR in K2. unfold lcounts in K1. unfold rcounts in K2.
    rewrite nth_error_map in K1, K2.
    destruct (nth_error edges b') as [e'|] eqn:E'; [|discriminate]. cbn in K1, K2.
    injection K1 as <-. injection K2 as <-. rewrite !sum_class_counts, !labels_length in K by auto.
    inv_ok K. subst. apply parts_length. }
  destruct (rev sides) as [|[ab lastn] rs] eqn:RS; [discriminate|].
  assert (EN : lastn = length T). { eapply LAST. apply in_rev. rewrite RS. now left. }
  rewrite (combine_counts cl _ _ (labels_of T)) in H by (intros; apply parts_occurrences).
  apply rbind_ok in H. destruct H as [[cg cv] [EC H]].
  assert (NT : T <> []). { intros ->. now apply NL. }
  rewrite EN, <- (labels_length T) in EC. apply HV in EC; [|now apply LN|auto|exact FT]. subst cv.
  apply ok_pair_inv in H. destruct H as [_ <-]. rewrite nth_error_map, Hs in Hv. cbn in Hv. injection Hv as <-. reflexivity.
Qed.

Lemma regr_change M h edges T bins pop irs vs i b ir vv e :
  h_class h = false -> regr_inv h edges T ->
  get_impurity_reductions M MSE h bins pop = Ok (irs, vs) ->
  nth_error bins i = Some b -> nth_error irs i = Some ir -> nth_error vs i = Some vv -> nth_error edges b = Some e ->
  let L := left_part (h_feat h) e T in let R := right_part (h_feat h) e T in
  let PL := side_population pop (length L) (length T) in let PR := side_population pop (length R) (length T) in
  2 <= length L -> 2 <= length R -> match pop, PL, PR with Some n, Some nl, Some nr => length T <= n /\ 4 <= nl /\ 4 <= nr | _, _, _ => True end ->
  ir = (rat (length L) / rat (length T) * spread_estimate (labels_of L) PL + rat (length R) / rat (length T) * spread_estimate (labels_of R) PR - spread_estimate (labels_of T) pop)%Qc /\
  vv = Fin (change_variance spread_variance T (h_feat h) e pop).
Proof.
  intros C [IL [IR IC]] H Hb Hi Hv He L R PL PR NL NR P. unfold get_impurity_reductions in H. rewrite C in H.
  apply rbind_ok in H. destruct H as [[] [_ H]].
  apply rbind_ok in H. destruct H as [l0 [EL0 H]].
  apply rbind_ok in H. destruct H as [r0 [ER0 H]].
  apply rbind_ok in H. destruct H as [sides [ES H]].
  apply rbind_ok in H. destruct H as [[cg cv] [EC H]].
  apply ok_pair_inv in H. destruct H as [<- <-].
  apply nth_res_ok in EL0. apply nth_res_ok in ER0. rewrite IL in EL0. rewrite IR in ER0.
  unfold lpiles in EL0. unfold rpiles in ER0. rewrite nth_error_map in EL0, ER0.
  destruct (nth_error edges 0) as [e0|]; [|discriminate]. cbn in EL0, ER0.
  injection EL0 as <-. injection ER0 as <-. cbn [pile_of p_n] in ES.
  rewrite !labels_length, parts_length in ES. rewrite IC in EC.
  assert (LT : length T = length L + length R) by (symmetry; apply parts_length).
  assert (RI : forall ls p g w, 2 <= length ls -> match p with None => True | Some N => 4 <= N /\ length ls <= N end ->
    regr_impurity MSE (pile_of ls) p = Ok (g, w) -> g = spread_estimate ls p /\ w = Fin (spread_variance ls p)).
  { intros ls p g w H1 H2 K. unfold regr_impurity in K. destruct p as [N|].
    - destruct H2. rewrite mse_var_pop in K by auto. cbn in K. injection K as <- <-. auto.
    - rewrite mse_var_none in K by auto. cbn in K. injection K as <- <-. auto. }
  apply RI in EC; [|rewrite labels_length; lia|rewrite labels_length; destruct pop as [N|]; [cbn in P; destruct P as [P1 [P2 P3]]|exact I]].
  2:{ split; auto. apply (Nat.le_trans _ _ _ P2). apply Nat.div_le_upper_bound; [lia|]. apply Nat.mul_le_mono_r. lia. }
  destruct EC as [-> ->].
  destruct (mapM_nth' _ _ _ _ _ ES Hb) as [s [Hs K]].
  apply rbind_ok in K. destruct K as [l [K1 K]].
  apply rbind_ok in K. destruct K as [r [K2 K]].
  apply nth_res_ok in K1. apply nth_res_ok in K2.
  rewrite IL in K1. rewrite IR in K2. unfold lpiles in K1. unfold rpiles in K2.
  rewrite nth_error_map, He in K1. rewrite nth_error_map, He in K2. cbn in K1, K2.
  injection K1 as <-. injection K2 as <-. cbn [pile_of p_n] in K. rewrite !labels_length, !side_pop_same in K.
  apply rbind_ok in K. destruct K as [[] [_ K]].
  apply rbind_ok in K. destruct K as [[gl vl] [K1 K]].
  apply rbind_ok in K. destruct K as [[gr vr] [K2 K]].
  assert (SP : forall k N, k <= length T -> length T <= N -> k <= k * N / length T).
  { intros k N H1 H2. apply Nat.div_le_lower_bound; [lia|]. rewrite Nat.mul_comm. now apply Nat.mul_le_mono_l. }
  apply RI in K1; [|rewrite labels_length; exact NL|rewrite labels_length; destruct pop as [N|]; [|exact I]; cbn in P |- *; destruct P as [P1 [P2 P3]]; split; [exact P2|apply SP; fold L; lia]].
  apply RI in K2; [|rewrite labels_length; exact NR|rewrite labels_length; destruct pop as [N|]; [|exact I]; cbn in P |- *; destruct P as [P1 [P2 P3]]; split; [exact P3|apply SP; fold R; lia]].
  destruct K1 as [-> ->], K2 as [-> ->]. injection K as <-.
  rewrite nth_error_map, Hs in Hi, Hv. cbn in Hi, Hv. injection Hi as <-. injection Hv as <-. split; reflexivity.
Qed.

(** From construction on. *)
Lemma class_gini M cl ls p g v : class_impurity M GINI (class_counts cl ls) p (length ls) = Ok (g, v) -> cl <> [] -> ls <> [] -> fit_pop p (length ls) -> v = Fin (separate_variance cl ls p).
Proof. intros H ? ? ?. eapply gini_var_separate; eauto. Qed.
Lemma change_ext V V' T f e pop : (forall ls p, V ls p = V' ls p) -> change_variance V T f e pop = change_variance V' T f e pop.
Proof. intros H. unfold change_variance. cbv zeta. now rewrite !H. Qed.
Lemma gini_change_variance f uf fd cl nb mn mx ty t h0 t' edges batches h M bins pop irs vs i b e v :
  new_hist true f uf fd cl nb mn mx ty t = Ok (h0, t') -> good_bins ty nb mn mx uf -> NoDup cl ->
  h_edges h0 = Some edges -> add_all h0 batches = Ok h ->
  let T := rows_of batches in
  get_impurity_reductions M GINI h bins pop = Ok (irs, vs) ->
  nth_error bins i = Some b -> nth_error edges b = Some e -> nth_error vs i = Some v ->
  left_part f e T <> [] -> right_part f e T <> [] -> populated pop T f e ->
  v = Fin (change_variance (separate_variance cl) T f e pop).
Proof.
  intros H G ND E HA T HR Hb He Hv NL NR P. destruct (built_class _ _ _ _ _ _ _ _ _ _ _ _ _ _ H G ND E HA) as [C [F [CL [CI IN]]]]. fold T in CI, IN. subst f cl.
  assert (NC : h_classes h <> []). { intros Z. rewrite Z in IN. destruct T as [|r T']; [now apply NL|]. destruct (IN (snd r)). now left. }
  eapply class_change; try exact HR; eauto.
  - intros ls p g w ? ? ? K. eapply class_gini; eauto.
  - destruct pop; cbn in *; tauto.
  - destruct pop; cbn in *; tauto.
  - destruct pop; cbn in *; tauto.
Qed.
Lemma two_class_change_variance f uf fd c0 c1 nb mn mx ty t h0 t' edges batches h M m bins pop irs vs i b e v :
  new_hist true f uf fd [c0; c1] nb mn mx ty t = Ok (h0, t') -> good_bins ty nb mn mx uf -> c0 <> c1 ->
  h_edges h0 = Some edges -> add_all h0 batches = Ok h ->
  let T := rows_of batches in
  get_impurity_reductions M m h bins pop = Ok (irs, vs) ->
  nth_error bins i = Some b -> nth_error edges b = Some e -> nth_error vs i = Some v ->
  left_part f e T <> [] -> right_part f e T <> [] -> populated pop T f e ->
  (m = GINI -> v = Fin (change_variance gini_variance T f e pop)) /\ (m = ENTROPY -> v = Fin (change_variance (entropy_variance (m_log M)) T f e pop)).
Proof.
  intros H G N E HA T HR Hb He Hv NL NR P. assert (ND : NoDup [c0; c1]) by (repeat constructor; cbn; intuition congruence).
  destruct (built_class _ _ _ _ _ _ _ _ _ _ _ _ _ _ H G ND E HA) as [C [F [CL [CI IN]]]]. fold T in CI, IN. subst f.
  assert (F1 : fit_pop pop (length T)) by (destruct pop; cbn in *; tauto).
  assert (F2 : fit_pop (side_population pop (length (left_part (h_feat h) e T)) (length T)) 0) by (destruct pop; cbn in *; tauto).
  assert (F3 : fit_pop (side_population pop (length (right_part (h_feat h) e T)) (length T)) 0) by (destruct pop; cbn in *; tauto).
  split; intros ->; eapply class_change; try exact HR; eauto; rewrite ?CL; auto.
  - intros ls p g w A1 A2 A3 K. destruct (gini_var_two c0 c1 ls p N A2 A1 A3) as [g' Q]. cbn [class_impurity] in K. rewrite Q in K. injection K as _ <-. reflexivity.
  - intros ls p g w A1 A2 A3 K. destruct (entropy_var_two M c0 c1 ls p N A2 A1 A3) as [g' Q]. cbn [class_impurity] in K. rewrite Q in K. injection K as _ <-. reflexivity.
Qed.
Lemma regr_change_variance f uf fd cl nb mn mx ty t h0 t' edges X Y h M bins pop irs vs i b e ir v :
  new_hist false f uf fd cl nb mn mx ty t = Ok (h0, t') -> good_bins ty nb mn mx uf ->
  h_edges h0 = Some edges -> hist_add h0 X Y = Ok h ->
  let T := combine X Y in
  get_impurity_reductions M MSE h bins pop = Ok (irs, vs) ->
  nth_error bins i = Some b -> nth_error edges b = Some e -> nth_error irs i = Some ir -> nth_error vs i = Some v ->
  let L := left_part f e T in let R := right_part f e T in
  let PL := side_population pop (length L) (length T) in let PR := side_population pop (length R) (length T) in
  2 <= length L -> 2 <= length R -> match pop, PL, PR with Some n, Some nl, Some nr => length T <= n /\ 4 <= nl /\ 4 <= nr | _, _, _ => True end ->
  ir = (rat (length L) / rat (length T) * spread_estimate (labels_of L) PL + rat (length R) / rat (length T) * spread_estimate (labels_of R) PR - spread_estimate (labels_of T) pop)%Qc /\
  v = Fin (change_variance spread_variance T f e pop).
Proof.
  intros H G E HA T HR Hb He Hi Hv. destruct (built_regr _ _ _ _ _ _ _ _ _ _ _ _ _ _ _ H G E HA) as [C [F [RI LL]]]. fold T in RI. subst f.
  eapply regr_change; eauto.
Qed.

(** The vectorised impurity changes against the loop. *)
From Coq Require Import List Arith Bool ZArith QArith Qcanon Lia.
From Verif Require Import Base Num Rng Histogram Criteria Vector Spec NumFacts ListFacts HistFacts HistAdd CritFacts HistProps HistProps2 MabMore VectorFacts.
Import ListNotations.
Local Open Scope nat_scope.

Lemma xmul_comm a b : xmul a b = xmul b a.
Proof. destruct a, b; cbn; auto. f_equal. apply Qcmult_comm. Qed.
Lemma xadd_comm a b : xadd a b = xadd b a.
Proof. destruct a, b; cbn; auto. f_equal. apply Qcplus_comm. Qed.
Lemma xadd_assoc a b c : xadd a (xadd b c) = xadd (xadd a b) c.
Proof. destruct a, b, c; cbn; auto. f_equal. apply Qcplus_assoc. Qed.

Lemma combine_maps {A B C} (f : A -> B) (g : A -> C) l : combine (map f l) (map g l) = map (fun a => (f a, g a)) l.
Proof. induction l as [|a l IH]; cbn; auto. now rewrite IH. Qed.

Lemma mapM_pair {A B C D} (F : A -> res B) (G : A -> res C) (k : A -> B -> C -> D) l s :
  mapM (fun a => do x <- F a; do y <- G a; Ok (k a x y)) l = Ok s <->
  exists xs ys, mapM F l = Ok xs /\ mapM G l = Ok ys /\ s = map (fun t => k (fst t) (fst (snd t)) (snd (snd t))) (combine l (combine xs ys)).
Proof.
  revert s. induction l as [|a l IH]; intros s; cbn [mapM].
  - split.
    + intros H. injection H as <-. exists [], []. auto.
    + intros [xs [ys [_ [_ ->]]]]. reflexivity.
  - split.
    + intros H. apply rbind_ok in H. destruct H as [d [E H]]. apply rbind_ok in E. destruct E as [x [E1 E]]. apply rbind_ok in E. destruct E as [y [E2 E]]. injection E as <-.
      apply rbind_ok in H. destruct H as [s' [E H]]. injection H as <-. apply IH in E. destruct E as [xs [ys [X [Y ->]]]]. exists (x :: xs), (y :: ys). rewrite E1, E2, X, Y. cbn. auto.
    + intros [xs [ys [X [Y ->]]]]. apply rbind_ok in X. destruct X as [x [E1 X]]. apply rbind_ok in X. destruct X as [xs' [EX X]]. injection X as <-.
      apply rbind_ok in Y. destruct Y as [y [E2 Y]]. apply rbind_ok in Y. destruct Y as [ys' [EY Y]]. injection Y as <-. rewrite E1, E2. cbn [rbind].
      assert (Q := proj2 (IH _) (ex_intro _ xs' (ex_intro _ ys' (conj EX (conj EY eq_refl))))). rewrite Q. reflexivity.
Qed.

Lemma Nq_neq n : n <> 0 -> Nq n <> 0%Qc.
Proof. intros H E. apply H. apply rat_inj. exact E. Qed.
Lemma vec_side_weigh iv k n : n <> 0 -> vec_side (iv, (k, n)) = (Fin (fst (weigh k n iv)), snd (weigh k n iv)).
Proof.
  intros N. unfold vec_side, weigh. cbn [fst snd]. unfold xdiv. destruct (qeq (Nq n) 0) eqn:E; [apply qeq_spec in E; now apply Nq_neq in E|].
  f_equal; [cbn; f_equal; apply Qcmult_comm|]. cbn [xmul]. apply xmul_comm.
Qed.

Lemma map_Fin_inj a : forall b, map Fin a = map Fin b -> a = b.
Proof. induction a as [|x a IH]; intros [|y b] H; try discriminate; auto. cbn in H. injection H as -> H. f_equal. now apply IH. Qed.

(** Both programs put the sides together in the same way. *)
Lemma sides_same (ls rs : nat -> nat) (n : nat) (c : Qc * xn) : n <> 0 -> forall bins il ir, length il = length bins -> length ir = length bins ->
  vec_combine il ir (map ls bins) (map rs bins) (map (fun _ => n) bins) c =
  (map Fin (map (fun t => (fst (weigh (ls (fst t)) n (fst (snd t))) + fst (weigh (rs (fst t)) n (snd (snd t))) - fst c)%Qc) (combine bins (combine il ir))),
   map (fun t => xadd (xadd (snd (weigh (ls (fst t)) n (fst (snd t)))) (snd (weigh (rs (fst t)) n (snd (snd t))))) (snd c)) (combine bins (combine il ir))).
Proof.
  intros N. induction bins as [|b bins IH]; intros [|x il] [|y ir] H1 H2; try discriminate; [reflexivity|].
  injection H1 as H1. injection H2 as H2. specialize (IH il ir H1 H2). unfold vec_combine in *. cbn [map combine]. injection IH as I1 I2. rewrite !vec_side_weigh by exact N. cbn [fst snd].
  rewrite I1, I2. f_equal; f_equal.
  rewrite (xadd_comm _ (snd c)), xadd_assoc. reflexivity.
Qed.

Lemma side_sizes_ok pop (ls : nat -> nat) n bins : n <> 0 -> side_sizes pop (map ls bins) (map (fun _ => n) bins) = Ok (map (fun b => side_size pop (ls b) n) bins).
Proof.
  intros N. unfold side_sizes, side_size. destruct pop as [s|]; [|now rewrite map_map].
  rewrite combine_maps, mapM_map. apply mapM_pure. intros b _. cbn [fst snd]. destruct (Nat.eqb_spec n 0); [congruence|]. reflexivity.
Qed.

Lemma nth_res_map {A} (l : list A) d bins : (forall b, In b bins -> b < length l) -> mapM (nth_res l) bins = Ok (map (fun b => nth b l d) bins).
Proof. intros H. apply mapM_pure. intros b I. unfold nth_res. rewrite (nth_error_nth' l d) by now apply H. reflexivity. Qed.

(** ** Classification *)
Section Class.
Context (M : math) (h : hist) (bins : list nat) (pop : option nat) (tot : list nat).
Context (HC : h_class h = true) (NE : bins <> []) (LB : length bins <= h_nb h) (LL : h_nb h = length (h_left h)) (LR : h_nb h = length (h_right h)) (INR : forall b, In b bins -> b < h_nb h).
Context (TOT : forall b l r, nth_error (h_left h) b = Some l -> nth_error (h_right h) b = Some r -> map (fun ab => fst ab + snd ab) (combine l r) = tot /\ sum_nat l + sum_nat r = sum_nat tot).
Context (POS : sum_nat tot <> 0).
Let L b := nth b (h_left h) [].
Let R b := nth b (h_right h) [].
Let ls b := sum_nat (L b).
Let rs b := sum_nat (R b).
Let n := sum_nat tot.

Lemma at_bin b : b < h_nb h -> nth_error (h_left h) b = Some (L b) /\ nth_error (h_right h) b = Some (R b) /\ map (fun ab => fst ab + snd ab) (combine (L b) (R b)) = tot /\ ls b + rs b = n.
Proof using LL LR TOT.
  intros I. clear POS LB. assert (E1 : nth_error (h_left h) b = Some (L b)) by (apply nth_error_nth'; lia). assert (E2 : nth_error (h_right h) b = Some (R b)) by (apply nth_error_nth'; lia).
  destruct (TOT b _ _ E1 E2). auto.
Qed.

Lemma class_vec_form m : vec_reductions M m h bins pop =
  (do il <- vec_class M m (map L bins) (map (fun b => side_size pop (ls b) n) bins) (map ls bins);
   do ir <- vec_class M m (map R bins) (map (fun b => side_size pop (rs b) n) bins) (map rs bins);
   do c <- whole_class M m tot pop;
   Ok (vec_combine il ir (map ls bins) (map rs bins) (map (fun _ => n) bins) c)).
Proof.
  unfold vec_reductions. rewrite HC. rewrite (nth_res_map _ []) by (intros b I; specialize (INR b I); lia). cbn [rbind]. rewrite (nth_res_map _ []) by (intros b I; specialize (INR b I); lia). cbn [rbind].
  fold L R. rewrite !map_map. fold ls rs. rewrite combine_maps, map_map. cbn [fst snd].
  assert (NS : map (fun x => ls x + rs x) bins = map (fun _ => n) bins). { apply map_ext_in. intros b I. now apply at_bin, INR. }
  change (fun x => sum_nat (L x)) with ls. change (fun x => sum_nat (R x)) with rs. rewrite NS, !side_sizes_ok by exact POS. cbn [rbind].
  destruct (vec_class M m (map L bins) _ _) as [il|]; cbn [rbind]; [|reflexivity]. destruct (vec_class M m (map R bins) _ _) as [ir|]; cbn [rbind]; [|reflexivity].
  destruct bins as [|b0 t]; [congruence|]. cbn [map nth_res nth_error rbind].
  destruct (at_bin b0 (INR b0 (or_introl eq_refl))) as [_ [_ [E _]]]. rewrite E. reflexivity.
Qed.

Lemma whole_same m : class_impurity M m tot pop n = whole_class M m tot pop.
Proof. destruct m; reflexivity. Qed.

Lemma class_scalar_form m r : get_impurity_reductions M m h bins pop = Ok r <->
  exists il ir c, mapM (fun b => class_impurity M m (L b) (side_size pop (ls b) n) (ls b)) bins = Ok il /\
    mapM (fun b => class_impurity M m (R b) (side_size pop (rs b) n) (rs b)) bins = Ok ir /\ whole_class M m tot pop = Ok c /\
    r = (map (fun t => (fst (weigh (ls (fst t)) n (fst (snd t))) + fst (weigh (rs (fst t)) n (snd (snd t))) - fst c)%Qc) (combine bins (combine il ir)),
         map (fun t => xadd (xadd (snd (weigh (ls (fst t)) n (fst (snd t)))) (snd (weigh (rs (fst t)) n (snd (snd t))))) (snd c)) (combine bins (combine il ir))).
Proof.
  unfold get_impurity_reductions. rewrite HC. pose proof (proj2 (Nat.leb_le _ _) LB) as LB'. rewrite LB'. cbn [guard rbind].
  assert (P0 : 0 < h_nb h). { destruct bins as [|b0 t]; [congruence|]. specialize (INR b0 (or_introl eq_refl)). lia. }
  destruct (at_bin 0 P0) as [E1 [E2 [E3 E4]]]. unfold nth_res at 1 2. rewrite E1, E2. cbn [rbind]. fold (ls 0) (rs 0). rewrite E3, E4.
  set (body := fun b => _).
  assert (BODY : mapM body bins = mapM (fun b => do il <- class_impurity M m (L b) (side_size pop (ls b) n) (ls b); do ir <- class_impurity M m (R b) (side_size pop (rs b) n) (rs b); Ok ((fun b il ir => (weigh (ls b) n il, weigh (rs b) n ir, n)) b il ir)) bins).
  { apply mapM_ext. intros b I. unfold body. destruct (at_bin b (INR b I)) as [F1 [F2 [_ F4]]]. unfold nth_res. rewrite F1, F2. cbn [rbind]. fold (ls b) (rs b).
    destruct (Nat.eqb_spec n 0); [contradiction|]. cbn [negb guard rbind]. rewrite F4. reflexivity. }
  rewrite BODY. clear body BODY. set (P := mapM _ bins).
  assert (SPEC : forall s, P = Ok s <-> exists xs ys, mapM (fun b => class_impurity M m (L b) (side_size pop (ls b) n) (ls b)) bins = Ok xs /\
     mapM (fun b => class_impurity M m (R b) (side_size pop (rs b) n) (rs b)) bins = Ok ys /\ s = map (fun t => (weigh (ls (fst t)) n (fst (snd t)), weigh (rs (fst t)) n (snd (snd t)), n)) (combine bins (combine xs ys))).
  { intros s. unfold P. apply (mapM_pair _ _ (fun b il ir => (weigh (ls b) n il, weigh (rs b) n ir, n))). }
  assert (LAST : forall xs ys, length xs = length bins -> length ys = length bins -> exists w q, rev (map (fun t : nat * ((Qc * xn) * (Qc * xn)) => (weigh (ls (fst t)) n (fst (snd t)), weigh (rs (fst t)) n (snd (snd t)), n)) (combine bins (combine xs ys))) = (w, n) :: q).
  { intros xs ys X Y. rewrite <- map_rev. destruct (rev (combine bins (combine xs ys))) as [|u q] eqn:EQ.
    - apply (f_equal (@length _)) in EQ. rewrite rev_length, !combine_length, X, Y, !Nat.min_id in EQ. apply length_zero_iff_nil in EQ. congruence.
    - cbn [map]. eauto. }
  clearbody P. split.
  - intros H. apply rbind_ok in H. destruct H as [s [E H]]. apply SPEC in E. destruct E as [xs [ys [X [Y ->]]]].
    pose proof (mapM_length _ _ _ X) as X'. pose proof (mapM_length _ _ _ Y) as Y'. destruct (LAST xs ys X' Y') as [w [q EQ]]. rewrite EQ in H.
    apply rbind_ok in H. destruct H as [c [E H]]. injection H as <-. rewrite whole_same in E. exists xs, ys, c. rewrite !map_map. auto.
  - intros [xs [ys [c [X [Y [E ->]]]]]]. assert (Q := proj2 (SPEC _) (ex_intro _ xs (ex_intro _ ys (conj X (conj Y eq_refl))))). rewrite Q. cbn [rbind].
    pose proof (mapM_length _ _ _ X) as X'. pose proof (mapM_length _ _ _ Y) as Y'. destruct (LAST xs ys X' Y') as [w [q EQ]]. rewrite EQ, whole_same, E. cbn [rbind]. now rewrite !map_map.
Qed.

Lemma gini_vec m : m = GINI \/ m = MAuto -> forall irs vs, get_impurity_reductions M m h bins pop = Ok (irs, vs) <-> vec_reductions M m h bins pop = Ok (map Fin irs, vs).
Proof.
  intros MM irs vs. rewrite class_vec_form, class_scalar_form.
  assert (V : forall (X : nat -> list nat) (xs : nat -> nat), vec_class M m (map X bins) (map (fun b => side_size pop (xs b) n) bins) (map xs bins) = mapM (fun b => class_impurity M m (X b) (side_size pop (xs b) n) (xs b)) bins).
  { intros X xs. destruct MM as [-> | ->]; cbn [vec_class class_impurity]; rewrite !combine_maps, mapM_map; reflexivity. }
  rewrite (V L ls), (V R rs). split.
  - intros [xs [ys [c [X [Y [E H]]]]]]. injection H as -> ->. rewrite X, Y, E. cbn [rbind]. f_equal. apply sides_same; [exact POS|eapply mapM_length; eauto..].
  - intros H. apply rbind_ok in H. destruct H as [xs [X H]]. apply rbind_ok in H. destruct H as [ys [Y H]]. apply rbind_ok in H. destruct H as [c [E H]].
    exists xs, ys, c. rewrite sides_same in H; [|exact POS|eapply mapM_length; eauto..]. injection H as H1 H2. repeat split; auto. f_equal; [|auto].
    apply map_Fin_inj. auto.
Qed.

(** With the entropy the changes agree, and the variance of the last bin considered. *)
Lemma entropy_rows (X : nat -> list nat) (xs : nat -> nat) K il : (forall b, In b bins -> length (X b) = K) ->
  mapM (fun b => get_entropy M (X b) (side_size pop (xs b) n) (Some (xs b))) bins = Ok il ->
  exists il', vec_entropy M (map X bins) (map (fun b => side_size pop (xs b) n) bins) (map xs bins) = Ok il' /\ map fst il' = map fst il /\ forall d, last il' d = last il d.
Proof.
  intros HK H.
  set (p := fun b => class_probs (X b) (xs b)). set (lg := fun b => map (fun x => nan_to_num (xlog M x)) (p b)).
  set (E := fun b => qsum (map (fun xl => - snd xl * fst xl)%Qc (combine (p b) (lg b)))). set (v := fun b => prob_var (side_size pop (xs b) n) (xs b) (nth 0 (p b) 0%Qc)).
  set (term := fun b m => xmul (Fin ((- nth 0 (lg b) 0%Qc + m) * (- nth 0 (lg b) 0%Qc + m))%Qc) (v b)).
  assert (LP : forall b, In b bins -> length (p b) = K /\ length (lg b) = K). { intros b I. unfold lg, p, class_probs. rewrite !map_length. auto. }
  assert (VF : vec_entropy M (map X bins) (map (fun b => side_size pop (xs b) n) bins) (map xs bins) =
    match rev (map lg bins) with
    | [] => Err IndexError
    | [] :: _ | [_] :: _ => Ok (map (fun b => (E b, Fin 0)) bins)
    | [m0; m1] :: _ => Ok (map (fun b => (E b, xadd (term b m0) (xadd (term b m1) (Fin 0)))) bins)
    | _ => Err ValueError
    end).
  { unfold vec_entropy. repeat (rewrite combine_maps || rewrite map_map). cbn [fst snd]. repeat (rewrite combine_maps || rewrite map_map).
    change (map (fun x => map (fun x0 => nan_to_num (xlog M x0)) (class_probs (X x) (xs x))) bins) with (map lg bins).
    destruct (rev (map lg bins)) as [|[|m0 [|m1 [|m2 w]]] q]; try reflexivity. rewrite map_map. reflexivity. }
  rewrite VF. clear VF.
  destruct (exists_last NE) as [bs [bl EB]]. assert (IBL : In bl bins) by (rewrite EB; apply in_app_iff; right; left; auto).
  assert (RL : rev (map lg bins) = lg bl :: rev (map lg bs)) by (rewrite EB, map_app, rev_app_distr; reflexivity). rewrite RL. destruct (LP bl IBL) as [_ LBL].
  assert (SC : forall b, In b bins -> get_entropy M (X b) (side_size pop (xs b) n) (Some (xs b)) =
    match K with 0 | 1 => Ok (E b, Fin 0) | 2 => Ok (E b, xadd (term b (nth 0 (lg b) 0%Qc)) (xadd (term b (nth 1 (lg b) 0%Qc)) (Fin 0))) | _ => Err ValueError end).
  { intros b I. destruct (LP b I) as [P1 P2]. unfold get_entropy. cbn [opt_n]. fold (p b). fold (lg b). fold (E b).
    unfold term, v. destruct (p b) as [|p0 [|p1 [|p2 q]]]; cbn in P1; rewrite <- P1 in *; try reflexivity.
    destruct (lg b) as [|l0 [|l1 [|l2 l]]]; try discriminate P2; reflexivity. }
  rewrite (mapM_ext _ _ _ SC) in H.
  assert (FI : forall f : nat -> Qc * xn, map fst (map f bins) = map fst il -> (forall d, last (map f bins) d = f bl)).
  { intros f _ d. rewrite EB, map_app. cbn [map]. apply last_last. }
  destruct K as [|[|[|K]]].
  - destruct (lg bl) as [|m0 [|m1 l]]; try discriminate LBL. rewrite (mapM_pure _ (fun b => (E b, Fin 0))) in H by reflexivity. injection H as <-. eauto.
  - destruct (lg bl) as [|m0 [|m1 l]]; try discriminate LBL. rewrite (mapM_pure _ (fun b => (E b, Fin 0))) in H by reflexivity. injection H as <-. eauto.
  - destruct (lg bl) as [|m0 [|m1 [|m2 l]]] eqn:EL; try discriminate LBL. rewrite (mapM_pure _ (fun b => (E b, xadd (term b (nth 0 (lg b) 0%Qc)) (xadd (term b (nth 1 (lg b) 0%Qc)) (Fin 0))))) in H by reflexivity. injection H as <-.
    eexists. split; [reflexivity|]. split; [now rewrite !map_map|]. intros d. rewrite EB, !map_app. cbn [map]. rewrite !last_last, EL. reflexivity.
  - exfalso. destruct bins as [|b0 t]; [congruence|]. discriminate H.
Qed.

Lemma entropy_vec irs vs : (forall b, In b bins -> length (L b) = length tot /\ length (R b) = length tot) ->
  get_impurity_reductions M ENTROPY h bins pop = Ok (irs, vs) ->
  exists vs', vec_reductions M ENTROPY h bins pop = Ok (map Fin irs, vs') /\ length vs' = length vs /\ forall d, last vs' d = last vs d.
Proof.
  intros SHP H. apply class_scalar_form in H. destruct H as [xs [ys [c [X [Y [E H]]]]]]. injection H as -> ->. rewrite class_vec_form. cbn [vec_class]. cbn [class_impurity] in X, Y.
  pose proof (mapM_length _ _ _ X) as LX. pose proof (mapM_length _ _ _ Y) as LY.
  destruct (entropy_rows L ls (length tot) xs (fun b I => proj1 (SHP b I)) X) as [xs' [-> [FX SX]]]. destruct (entropy_rows R rs (length tot) ys (fun b I => proj2 (SHP b I)) Y) as [ys' [-> [FY SY]]].
  cbn [rbind]. rewrite E. cbn [rbind].
  assert (LX' : length xs' = length bins) by (rewrite <- LX, <- (map_length fst xs), <- FX; now rewrite map_length).
  assert (LY' : length ys' = length bins) by (rewrite <- LY, <- (map_length fst ys), <- FY; now rewrite map_length).
  rewrite sides_same by auto. eexists. split; [f_equal; f_equal; f_equal|].
  - clear - FX FY. revert xs xs' ys ys' FX FY. generalize bins. intros bs. induction bs as [|b l IH]; intros xs xs' ys ys' FX FY; [reflexivity|].
    destruct xs as [|x xs], xs' as [|x' xs']; try discriminate; [reflexivity|]. destruct ys as [|y ys], ys' as [|y' ys']; try discriminate; [reflexivity|].
    cbn in FX, FY. injection FX as FX1 FX. injection FY as FY1 FY. cbn [combine map fst snd]. f_equal; [unfold weigh; cbn [fst]; now rewrite FX1, FY1|]. now apply IH.
  - rewrite !map_length, !combine_length, LX, LY, LX', LY'. split; [reflexivity|]. intros d.
    assert (LAST : forall us ws, length us = length bins -> length ws = length bins ->
      last (map (fun t : nat * ((Qc * xn) * (Qc * xn)) => xadd (xadd (snd (weigh (ls (fst t)) n (fst (snd t)))) (snd (weigh (rs (fst t)) n (snd (snd t))))) (snd c)) (combine bins (combine us ws))) d =
      xadd (xadd (snd (weigh (ls (last bins 0)) n (last us (0%Qc, NaN)))) (snd (weigh (rs (last bins 0)) n (last ws (0%Qc, NaN))))) (snd c)).
    { clear - NE. revert NE. generalize bins. intros bs. induction bs as [|b l IH]; intros NE us ws U W; [congruence|]. destruct us as [|u us]; [discriminate|]. destruct ws as [|w ws]; [discriminate|].
      injection U as U. injection W as W. destruct l as [|b2 l].
      - destruct us; [|discriminate]. destruct ws; [|discriminate]. reflexivity.
      - destruct us as [|u2 us]; [discriminate|]. destruct ws as [|w2 ws]; [discriminate|]. specialize (IH ltac:(discriminate) (u2 :: us) (w2 :: ws) U W). exact IH. }
    rewrite !LAST by auto. now rewrite SX, SY.
Qed.
End Class.

(** ** Regression *)
Lemma regr_vec m h bins pop n : h_class h = false -> bins <> [] -> length bins <= h_nb h -> h_nb h = length (h_lpile h) -> h_nb h = length (h_rpile h) -> (forall b, In b bins -> b < h_nb h) ->
  (forall b l r, nth_error (h_lpile h) b = Some l -> nth_error (h_rpile h) b = Some r -> p_n l + p_n r = n) -> n <> 0 -> m = MSE \/ m = MAuto ->
  forall M irs vs, get_impurity_reductions M m h bins pop = Ok (irs, vs) <-> vec_reductions M m h bins pop = Ok (map Fin irs, vs).
Proof.
  intros HC NE LB LL LR INR TOT POS MM M irs vs.
  set (L := fun b => nth b (h_lpile h) pile0). set (R := fun b => nth b (h_rpile h) pile0). set (ls := fun b => p_n (L b)). set (rs := fun b => p_n (R b)).
  assert (AT : forall b, b < h_nb h -> nth_error (h_lpile h) b = Some (L b) /\ nth_error (h_rpile h) b = Some (R b) /\ ls b + rs b = n).
  { intros b I. assert (E1 : nth_error (h_lpile h) b = Some (L b)) by (apply nth_error_nth'; lia). assert (E2 : nth_error (h_rpile h) b = Some (R b)) by (apply nth_error_nth'; lia). split; [auto|]. split; [auto|]. exact (TOT b _ _ E1 E2). }
  assert (VEC : vec_reductions M m h bins pop =
    (do il <- mapM (fun b => regr_impurity m (L b) (side_size pop (ls b) n)) bins; do ir <- mapM (fun b => regr_impurity m (R b) (side_size pop (rs b) n)) bins;
     do c <- regr_impurity m (h_cpile h) pop; Ok (vec_combine il ir (map ls bins) (map rs bins) (map (fun _ => n) bins) c))).
  { unfold vec_reductions. rewrite HC. rewrite (nth_res_map _ pile0) by (intros b I; specialize (INR b I); lia). cbn [rbind]. rewrite (nth_res_map _ pile0) by (intros b I; specialize (INR b I); lia). cbn [rbind].
    fold L R. rewrite !map_map. fold ls rs. rewrite combine_maps, map_map. cbn [fst snd].
    assert (NS : map (fun x => ls x + rs x) bins = map (fun _ => n) bins). { apply map_ext_in. intros b I. now apply AT, INR. }
    change (fun x => p_n (L x)) with ls. change (fun x => p_n (R x)) with rs. rewrite NS, !side_sizes_ok by exact POS. cbn [rbind].
    assert (V : forall (X : nat -> pile) (xs : nat -> nat), vec_regr m (map X bins) (map (fun b => side_size pop (xs b) n) bins) = mapM (fun b => regr_impurity m (X b) (side_size pop (xs b) n)) bins).
    { intros X xs. destruct MM as [-> | ->]; cbn [vec_regr regr_impurity]; rewrite combine_maps, mapM_map; reflexivity. }
    rewrite (V L ls), (V R rs). destruct (mapM _ bins) as [il|]; cbn [rbind]; [|reflexivity]. destruct (mapM _ bins) as [ir|]; cbn [rbind]; [|reflexivity].
    destruct MM as [-> | ->]; cbn [vec_regr regr_impurity combine mapM fst snd]; destruct (get_mse (h_cpile h) pop); reflexivity. }
  assert (SCA : get_impurity_reductions M m h bins pop = Ok (irs, vs) <-> exists il ir c, mapM (fun b => regr_impurity m (L b) (side_size pop (ls b) n)) bins = Ok il /\ mapM (fun b => regr_impurity m (R b) (side_size pop (rs b) n)) bins = Ok ir /\
    regr_impurity m (h_cpile h) pop = Ok c /\
    irs = map (fun t => (fst (weigh (ls (fst t)) n (fst (snd t))) + fst (weigh (rs (fst t)) n (snd (snd t))) - fst c)%Qc) (combine bins (combine il ir)) /\
    vs = map (fun t => xadd (xadd (snd (weigh (ls (fst t)) n (fst (snd t)))) (snd (weigh (rs (fst t)) n (snd (snd t))))) (snd c)) (combine bins (combine il ir))).
  { unfold get_impurity_reductions. rewrite HC. pose proof (proj2 (Nat.leb_le _ _) LB) as LB'. rewrite LB'. cbn [guard rbind].
    assert (P0 : 0 < h_nb h). { destruct bins as [|b0 t]; [congruence|]. specialize (INR b0 (or_introl eq_refl)). lia. }
    destruct (AT 0 P0) as [E1 [E2 E4]]. unfold nth_res at 1 2. rewrite E1, E2. cbn [rbind]. fold (ls 0) (rs 0). rewrite E4.
    set (body := fun b => _).
    assert (BODY : mapM body bins = mapM (fun b => do il <- regr_impurity m (L b) (side_size pop (ls b) n); do ir <- regr_impurity m (R b) (side_size pop (rs b) n); Ok ((fun b il ir => (weigh (ls b) n il, weigh (rs b) n ir)) b il ir)) bins).
    { apply mapM_ext. intros b I. unfold body. destruct (AT b (INR b I)) as [F1 [F2 F4]]. unfold nth_res. rewrite F1, F2. cbn [rbind]. fold (ls b) (rs b).
      destruct (Nat.eqb_spec n 0); [contradiction|]. reflexivity. }
    rewrite BODY. clear body BODY. split.
    - intros H. apply rbind_ok in H. destruct H as [s [E H]]. apply (mapM_pair _ _ (fun b il ir => (weigh (ls b) n il, weigh (rs b) n ir))) in E. destruct E as [xs [ys [X [Y ->]]]].
      apply rbind_ok in H. destruct H as [c [E H]]. injection H as <- <-. exists xs, ys, c. rewrite !map_map. auto.
    - intros [xs [ys [c [X [Y [E [-> ->]]]]]]]. rewrite (proj2 (mapM_pair _ _ (fun b il ir => (weigh (ls b) n il, weigh (rs b) n ir)) bins _) (ex_intro _ xs (ex_intro _ ys (conj X (conj Y eq_refl))))). cbn [rbind].
      rewrite E. cbn [rbind]. now rewrite !map_map. }
  rewrite VEC, SCA. split.
  - intros [xs [ys [c [X [Y [E [-> ->]]]]]]]. rewrite X, Y, E. cbn [rbind]. f_equal. apply sides_same; [exact POS|eapply mapM_length; eauto..].
  - intros H. apply rbind_ok in H. destruct H as [xs [X H]]. apply rbind_ok in H. destruct H as [ys [Y H]]. apply rbind_ok in H. destruct H as [c [E H]].
    exists xs, ys, c. rewrite sides_same in H; [|exact POS|eapply mapM_length; eauto..]. injection H as H1 H2. split; [auto|]. split; [auto|]. split; [auto|]. split; [apply map_Fin_inj; auto|auto].
Qed.

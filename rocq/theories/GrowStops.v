(** Stricter stopping rules prune the tree; non-negative values of min_impurity_decrease are all alike. *)
From Coq Require Import List Arith Bool ZArith QArith Qcanon Lia Permutation.
From Verif Require Import Base Num Rng Histogram Utils Criteria Solvers Tree Forest Spec SolverSpec TreeSpec TrainSpec NestSpec GrowSpec ListFacts NumFacts TreeFacts TreeThms TreeTotal TreeMore TrainFacts ColSim NestThms NestTree GrowFacts GrowThms.
Import ListNotations.
Local Open Scope nat_scope.

(** ** Stricter rules *)
Section Rec.
Context (M : math) (c : tcfg) (a : targs) (d d' : depthlim) (ms ms' : nat) (mi mi' : Qc).
Notation c1 := (with_stops c d ms mi).
Notation c2 := (with_stops c d' ms' mi').
Context (NR : tc_bin c = LINEAR \/ tc_bin c = IDENTITY) (DL : depth_le d d') (SL : ms' <= ms) (IL : (mi <= mi')%Qc).

Lemma may_more k I : may_split c1 a k I -> may_split c2 a k I.
Proof.
  intros [H1 [H2 H3]]. split; [|split; auto; cbn in *; lia]. unfold below_depth in *. cbn in *. destruct d, d'; cbn in *; try tauto; lia.
Qed.
Lemma worth_more I s v : worth M c1 a I s v -> worth M c2 a I s v.
Proof. intros [H1 H2]. split; (eapply Qclt_le_trans; [eassumption|exact IL]). Qed.
Lemma recursive_pruned k I sh sh' : recursive M c1 a k I sh -> recursive M c2 a k I sh' -> pruned sh sh'.
Proof.
  intros H. revert sh'. induction H as [k I s v l r H1 H2 H3 Hl IHl Hr IHr|k I H]; intros sh' K.
  - inversion K as [k0 I0 s0 v0 l0 r0 K1 K2 K3 Kl Kr|k0 I0 K1]; subst.
    + destruct (best_cut_unique M c2 a NR I s0 v0 s v K2 H2) as [-> ->]. constructor; auto.
    + exfalso. apply K1. split; [now apply may_more|]. exists s, v. split; [exact H2|now apply worth_more].
  - rewrite <- (recursive_rows _ _ _ _ _ _ K). constructor.
Qed.
End Rec.
Lemma pruned_leaves M c a k I sh sh' : recursive M c a k I sh' -> pruned sh sh' -> (forall J', In J' (leaf_sets sh') -> exists J, In J (leaf_sets sh) /\ incl J' J) /\ length (leaf_sets sh) <= length (leaf_sets sh').
Proof.
  intros H K. revert k I H. induction K as [sh'|I0 s v l r l' r' Kl IHl Kr IHr]; intros k I H.
  - split; [|cbn; clear; induction sh'; cbn; [lia|rewrite app_length; lia]]. intros J' HJ. exists (rows_in sh'). split; [now left|]. rewrite (recursive_rows _ _ _ _ _ _ H). exact (recursive_leaves M c a k I sh' H J' HJ).
  - inversion H as [k0 I1 s0 v0 l0 r0 K1 K2 K3 Hl Hr|]; subst. destruct (IHl _ _ Hl) as [A1 A2]. destruct (IHr _ _ Hr) as [B1 B2]. cbn [leaf_sets]. split; [|rewrite !app_length; lia].
    intros J' HJ. apply in_app_or in HJ. destruct HJ as [HJ|HJ]; [destruct (A1 _ HJ) as [J [J1 J2]]|destruct (B1 _ HJ) as [J [J1 J2]]]; exists J; (split; [apply in_or_app; auto|auto]).
Qed.

Section Two.
Context (P : prng) (M : math) (c : tcfg) (a : targs) (W : nat) (d d' : depthlim) (ms ms' : nat) (mi mi' : Qc).
Notation c1 := (with_stops c d ms mi).
Notation c2 := (with_stops c d' ms' mi').
Context (EX : exhaustive c a) (TR1 : trainable c1 a W) (TR2 : trainable c2 a W) (DL : depth_le d d') (SL : ms' <= ms) (IL : (mi <= mi')%Qc).

Theorem stricter_prunes e e' t t' : built P M c1 a e t -> built P M c2 a e' t' ->
  exists sh sh', has_shape t 0 sh /\ has_shape t' 0 sh' /\ pruned sh sh' /\ finer t t' /\ length (t_leaves t) <= length (t_leaves t').
Proof.
  intros B B'. destruct (fitted_recursive P M c1 a e t W TR1 B EX) as (sh & S1 & R1). destruct (fitted_recursive P M c2 a e' t' W TR2 B' EX) as (sh' & S2 & R2).
  assert (NR : tc_bin c = LINEAR \/ tc_bin c = IDENTITY) by apply EX.
  pose proof (recursive_pruned M c a d d' ms ms' mi mi' NR DL SL IL _ _ _ _ R1 R2) as PR. destruct (pruned_leaves _ _ _ _ _ _ _ R2 PR) as [L1 L2].
  pose proof (shape_leaves P M c1 a e t W TR1 B sh S1) as P1. pose proof (shape_leaves P M c2 a e' t' W TR2 B' sh' S2) as P2.
  exists sh, sh'. ands; auto.
  - intros leaf' HL. assert (X : In (node_rows t' leaf') (leaf_sets sh')) by (eapply Permutation_in; [exact P2|]; now apply in_map).
    destruct (L1 _ X) as [J [J1 J2]]. apply Permutation_sym in P1. apply (Permutation_in _ P1) in J1. apply in_map_iff in J1. destruct J1 as [leaf [<- J3]]. eauto.
  - apply Permutation_length in P1, P2. rewrite map_length in P1, P2. congruence || lia.
Qed.
Theorem stricter_error e e' t t' ps s ps' s' : built P M c1 a e t -> built P M c2 a e' t' ->
  tree_predict_batch c1 t (train_points a) = Ok (ps, s) -> tree_predict_batch c2 t' (train_points a) = Ok (ps', s') ->
  (tc_class c = false -> (sq_error (train_labels a) (map number_of ps') <= sq_error (train_labels a) (map number_of ps))%Qc) /\
  (tc_class c = true -> good_classes (tc_classes c) -> hits (train_labels a) (map label_of ps) <= hits (train_labels a) (map label_of ps')).
Proof.
  intros B B' H H'. destruct (stricter_prunes e e' t t' B B') as (_ & _ & _ & _ & _ & F & _). pose proof (tr_rows _ _ _ TR1) as NE. split.
  - intros IC. exact (finer_error P M c1 c2 a e e' t t' B B' NE _ _ _ _ F IC IC H H').
  - intros IC G. exact (finer_hits P M c1 c2 a e e' t t' B B' NE _ _ _ _ F IC IC G H H').
Qed.
End Two.

(** ** Non-negative min_impurity_decrease *)
Lemma finish_neg hs est mir ce q f v r q' : finish hs est mir ce q = Ok (Found f v r q') -> xlt r (Fin mir) = true.
Proof.
  unfold finish. intros H. apply rbind_ok in H. destruct H as [h [_ H]]. apply rbind_ok in H. destruct H as [ed [_ H]]. apply rbind_ok in H. destruct H as [v0 [_ H]]. cbv zeta in H.
  destruct (xlt (est (fst ce) (snd ce)) (Fin mir)) eqn:X; [|discriminate]. injection H as <- <- <- <-. exact X.
Qed.
Lemma solve_neg M c nd b e f v r q bins e1 : node_solve M c nd b e = Ok (Found f v r q, bins, e1) -> xlt r (Fin 0) = true.
Proof.
  unfold node_solve. intros H. apply rbind_ok in H. destruct H as [data [_ H]]. apply rbind_ok in H. destruct H as [labels [_ H]]. cbv zeta in H. destruct (tc_solver c); [| |discriminate].
  - apply rbind_ok in H. destruct H as [[out e2] [H1 H]]. cbn [fst snd] in H. assert (out = Found f v r q) by congruence. subst out. clear H. unfold solve_mab in H1. destruct (alloc e) as [j e3]. cbv zeta in H1.
    apply rbind_ok in H1. destruct H1 as [r0 [_ H1]]. destruct (s_bin _); try discriminate H1;
      (apply rbind_ok in H1; destruct H1 as [mh [_ H1]]; apply rbind_ok in H1; destruct H1 as [u [_ H1]]; apply rbind_ok in H1; destruct H1 as [s [_ H1]]; apply rbind_ok in H1; destruct H1 as [best [_ H1]]; apply rbind_ok in H1; destruct H1 as [bp [_ H1]]; apply rbind_ok in H1; destruct H1 as [r1 [H1 H2]]; assert (r1 = Found f v r q) by congruence; subst r1; eapply finish_neg; exact H1).
  - apply rbind_ok in H. destruct H as [[out e2] [H1 H]]. cbn [fst snd] in H. assert (out = Found f v r q) by congruence. subst out. clear H. unfold solve_exactly in H1.
destruct (alloc e) as [j e3]. cbv zeta in H1.
    apply rbind_ok in H1. destruct H1 as [r0 [_ H1]]. apply rbind_ok in H1. destruct H1 as [mh [_ H1]]. apply rbind_ok in H1. destruct H1 as [u [_ H1]]. apply rbind_ok in H1. destruct H1 as [acc [_ H1]]. apply rbind_ok in H1. destruct H1 as [s [_ H1]]. apply rbind_ok in H1. destruct H1 as [est [_ H1]]. apply rbind_ok in H1. destruct H1 as [best [_ H1]].
    destruct best as [|b0 best]; [discriminate|]. apply rbind_ok in H1. destruct H1 as [r1 [H1 H2]]. assert (r1 = Found f v r q) by congruence. subst r1. eapply finish_neg. exact H1.
Qed.
Lemma sign_pos p : (0 < p)%Qc -> xsign p = Gt.
Proof. intros H. unfold xsign. apply Qcgt_alt. exact H. Qed.
Lemma sign_neg p : (p < 0)%Qc -> xsign p = Lt.
Proof. intros H. unfold xsign. apply Qclt_alt. exact H. Qed.
Lemma neg_mul x p : (0 < p)%Qc -> xlt x (Fin 0) = true -> xlt (xmul x (Fin p)) (Fin 0) = true.
Proof.
  intros H. destruct x as [x| | |]; cbn [xlt xmul]; try discriminate; intros X.
  - apply qlt_spec in X. apply qlt_spec. replace 0%Qc with (0 * p)%Qc by ring. now apply Qcmult_lt_compat_r.
  - now rewrite (sign_pos p H).
Qed.
Lemma neg_div x p : (0 <= p)%Qc -> xlt x (Fin 0) = true -> xlt (xdiv x (Fin p)) (Fin 0) = true.
Proof.
  intros H. destruct x as [x| | |]; cbn [xlt xdiv]; try discriminate; intros X.
  - apply qlt_spec in X. destruct (qeq p 0) eqn:Z; [now rewrite (sign_neg x X)|]. apply qeq_false in Z. cbn. apply qlt_spec. unfold Qcdiv. replace 0%Qc with (0 * / p)%Qc by ring. apply Qcmult_lt_compat_r; auto. apply qinv_pos.
    destruct (Qcle_lt_or_eq _ _ H); auto. congruence.
  - destruct (qeq p 0) eqn:Z; [reflexivity|]. apply qeq_false in Z. rewrite sign_pos; [reflexivity|]. destruct (Qcle_lt_or_eq _ _ H); auto. congruence.
Qed.
Lemma neg_below x m : (0 <= m)%Qc -> xlt x (Fin 0) = true -> xlt x (Fin m) = true.
Proof. intros H. destruct x as [x| | |]; cbn; try discriminate; auto. intros X. apply qlt_spec in X. apply qlt_spec. eapply Qclt_le_trans; eauto. Qed.

Section Same.
Context (M : math) (c : tcfg) (d : depthlim) (ms : nat) (m1 m2 : Qc) (Z1 : (0 <= m1)%Qc) (Z2 : (0 <= m2)%Qc).
Notation c1 := (with_stops c d ms m1).
Notation c2 := (with_stops c d ms m2).
Context (D : list (list Qc)) (L : list Qc) (FS I0 : list nat) (b0 : option Z).
Notation inv := (tinv M c1 D L FS I0 b0).

Lemma red_neg nd x : node_ok M c1 D L FS I0 nd -> nd_red nd = Some x -> xlt x (Fin 0) = true.
Proof.
  intros N RX. destruct (nd_sf nd) as [s|] eqn:SF; [|rewrite (no_nosplit _ _ _ _ _ _ _ N SF) in RX; discriminate].
  destruct (no_solved _ _ _ _ _ _ _ N s SF) as (f & v & x' & _ & _ & RX' & SS). assert (x' = x) by congruence. subst x'.
  destruct SS as (nd0 & b & e0 & r0 & q & bins & e' & H1 & _ & _ & _ & _ & H6 & _). rewrite H6. apply neg_mul; [|eapply solve_neg; exact H1].
  rewrite (no_prop _ _ _ _ _ _ _ N). pose proof (no_ne _ _ _ _ _ _ _ N) as NEI. assert (0 < length (nd_idcs nd)) by (destruct (nd_idcs nd); [contradiction|cbn; lia]).
  assert (0 < length I0). { pose proof (no_rows _ _ _ _ _ _ _ N) as NR. destruct (nd_idcs nd) as [|i l]; [contradiction|]. specialize (NR i (or_introl eq_refl)). destruct I0; [destruct NR|cbn; lia]. }
  unfold Qcdiv. apply qmult_lt_0; [now apply Nq_pos|]. now apply qinv_pos, Nq_pos.
Qed.
Lemma test_same t nd e : node_ok M c1 D L FS I0 nd -> nd_computed nd = true -> check_splittable M c1 t nd e = check_splittable M c2 t nd e.
Proof.
  intros N C. unfold check_splittable. change (check_constraints c2 nd) with (check_constraints c1 nd). destruct (check_constraints c1 nd) as [ok|] eqn:CC; cbn [rbind]; auto. destruct ok; cbn [negb]; auto.
  unfold calculate_best_split. rewrite C. cbn [rbind]. destruct (nd_red nd) as [x|] eqn:RX; auto. rewrite ?C. cbn [rbind]. rewrite ?RX. cbn [opt_res rbind].
  assert (X : xlt (xdiv (xmul x (Fin (Nq (nd_n nd)))) (Fin (Nq (t_n t)))) (Fin 0) = true).
  { apply neg_div; [apply Nq_nonneg|]. apply neg_mul; [|eapply red_neg; eauto]. apply Nq_pos. rewrite (no_n _ _ _ _ _ _ _ N). pose proof (no_ne _ _ _ _ _ _ _ N). destruct (nd_idcs nd); [contradiction|cbn; lia]. }
  cbn [with_stops tc_min_imp]. rewrite (neg_below _ _ Z1 X), (neg_below _ _ Z2 X). reflexivity.
Qed.
Lemma scan_same s pos id : inv (sc_tree s) -> In id (t_leaves (sc_tree s)) -> scan_leaf M c1 s (pos, id) = scan_leaf M c2 s (pos, id).
Proof.
  intros T IL. unfold scan_leaf. destruct (sc_stop s); auto. destruct (nth_res (t_nodes (sc_tree s)) id) as [nd|] eqn:A; cbn [rbind]; auto. apply nth_res_ok in A. change (node_at (sc_tree s) id nd) in A.
  assert (LF : nd_left nd = None). { apply (ti_leaves _ _ _ _ _ _ _ _ T) in IL. destruct IL as [x [H1 H2]]. unfold node_at in *. congruence. }
  pose proof (ti_node _ _ _ _ _ _ _ _ T _ _ A) as N.
  change (check_constraints c2 nd) with (check_constraints c1 nd). destruct (check_constraints c1 nd) as [ok|] eqn:CC; cbn [rbind]; auto. destruct ok; cbn [negb]; auto.
  match goal with |- (if ?b then _ else _) = _ => destruct b end; auto.
  change (calculate_best_split M c2) with (calculate_best_split M c1). destruct (calculate_best_split M c1 nd (t_budget (sc_tree s)) (sc_env s)) as [[[nd1 red] e1]|] eqn:EB; cbn [rbind]; auto.
  destruct (best_split_ok _ _ _ _ _ _ _ _ _ _ _ _ N LF (or_intror CC) EB) as [K1 [K2 [K3 [K4 [K5 K6]]]]]. destruct (nd_splittable nd1); auto. rewrite (test_same _ nd1 e1 K2 K4). reflexivity.
Qed.
Lemma scans_same t l : (forall pos id, In (pos, id) l -> nth_error (t_leaves t) pos = Some id) ->
  forall z, scan_ok M c1 D L FS I0 b0 t z -> foldM (scan_leaf M c1) z l = foldM (scan_leaf M c2) z l.
Proof.
  induction l as [|[pos id] l IH]; intros HL z S; cbn [foldM]; auto. assert (P1 : nth_error (t_leaves t) pos = Some id) by (apply HL; now left).
  rewrite <- (scan_same z pos id); [|apply S|rewrite (so_leaves _ _ _ _ _ _ _ _ _ S); eapply nth_error_In; eauto].
  destruct (scan_leaf M c1 z (pos, id)) as [z2|] eqn:E; cbn [rbind]; auto. apply IH; [intros p i J; apply HL; now right|]. eapply scan_leaf_ok; eauto.
Qed.
Lemma step_same t e : inv t -> fit_step M c1 t e = fit_step M c2 t e.
Proof.
  intros T. unfold fit_step. assert (S0 : scan_ok M c1 D L FS I0 b0 t {| sc_tree := t; sc_env := e; sc_best := None; sc_stop := false |}) by (constructor; cbn; auto).
  rewrite <- (scans_same t _ (leaf_places (t_leaves t)) _ S0).
  match goal with |- context [foldM (scan_leaf M c1) ?z ?l] => destruct (foldM (scan_leaf M c1) z l) as [s|] eqn:ES end; cbn [rbind]; auto. pose proof (scan_ok_all _ _ _ _ _ _ _ _ _ _ T ES) as [T1 L1 S1 NN1 B1].
  destruct (sc_best s) as [[[pos id] x]|]; auto. destruct B1 as [P [nd [A [LF [CC [RX SP]]]]]]. pose proof (red_neg nd x (ti_node _ _ _ _ _ _ _ _ T1 _ _ A) RX) as X.
  cbn [with_stops tc_min_imp]. rewrite (neg_below _ _ Z1 X), (neg_below _ _ Z2 X). reflexivity.
Qed.
Lemma loop_same fuel : forall t e, inv t -> fit_loop M c1 fuel t e = fit_loop M c2 fuel t e.
Proof.
  induction fuel as [|fuel IH]; intros t e T; cbn [fit_loop]; [reflexivity|]. change (tc_max_leaves c2) with (tc_max_leaves c1).
  match goal with |- rbind ?x _ = rbind ?x _ => destruct x as [stop|] end; cbn [rbind]; auto. destruct stop; auto.
  rewrite <- (step_same t e T). destruct (fit_step M c1 t e) as [[[t1 e1] cont]|] eqn:ES; cbn [rbind]; auto. destruct cont; auto. apply IH. destruct (fit_step_tinv _ _ _ _ _ _ _ _ _ _ _ _ T ES) as [T1 _]. exact T1.
Qed.
End Same.

(** A tree with no rows is a single leaf. *)
Lemma empty_loop M c d ms m1 m2 t nd e fuel : t_nodes t = [nd] -> t_leaves t = [0] -> nd_n nd = 0 ->
  fit_loop M (with_stops c d ms m1) fuel t e = fit_loop M (with_stops c d ms m2) fuel t e.
Proof.
  intros H1 H2 H3. destruct fuel as [|fuel]; cbn [fit_loop]; [reflexivity|]. change (tc_max_leaves (with_stops c d ms m2)) with (tc_max_leaves (with_stops c d ms m1)).
  match goal with |- rbind ?x _ = rbind ?x _ => destruct x as [stop|] end; cbn [rbind]; auto. destruct stop; auto.
  assert (S : forall m, fit_step M (with_stops c d ms m) t e = match check_constraints (with_stops c d ms m1) nd with Ok _ => do k <- get_depth (put_node t 0 (with_splittable nd false)); Ok (set_depth (put_node t 0 (with_splittable nd false)) k, e, false) | Err x => Err x end).
  { intros m. unfold fit_step. rewrite H2. cbn [length seq combine foldM]. unfold scan_leaf. cbn [sc_stop sc_tree]. rewrite H1. cbn [nth_res nth_error rbind]. change (check_constraints (with_stops c d ms m) nd) with (check_constraints (with_stops c d ms m1) nd).
    unfold check_constraints. cbn [with_stops tc_max_depth tc_min_split]. rewrite H3. destruct d as [| |z]; cbn [rbind]; auto; destruct (Z.of_nat (nd_depth nd) <? z)%Z; cbn [negb rbind sc_tree sc_env sc_best]; reflexivity. }
  rewrite !S. destruct (check_constraints (with_stops c d ms m1) nd); cbn [rbind]; auto. destruct (get_depth (put_node t 0 (with_splittable nd false))); cbn [rbind]; auto.
Qed.
Theorem fit_same M P c d ms m1 m2 a e t0 e0 : (0 <= m1)%Qc -> (0 <= m2)%Qc -> tree_new P (with_stops c d ms m1) a e = Ok (t0, e0) ->
  tree_fit M (with_stops c d ms m1) t0 (None, None) e0 = tree_fit M (with_stops c d ms m2) t0 (None, None) e0.
Proof.
  intros Z1 Z2 HN.
  assert (G : forall dd fuel, fit_loop M (with_stops c d ms m1) fuel (start_tree t0 dd) e0 = fit_loop M (with_stops c d ms m2) fuel (start_tree t0 dd) e0).
  { intros dd fuel. destruct (train_rows a) as [|i l] eqn:NE.
    - destruct (new_spec _ _ _ _ _ _ HN) as (nd & e2 & ENN & ET & _). rewrite ET. apply empty_loop with (nd := nd); try reflexivity.
      unfold node_new in ENN. apply rbind_ok in ENN. destruct ENN as [[fs g] [_ Q]]. apply rbind_ok in Q. destruct Q as [_ [_ Q]]. apply rbind_ok in Q. destruct Q as [d2 [_ Q]].
      apply rbind_ok in Q. destruct Q as [ll [EL Q]]. apply rbind_ok in Q. destruct Q as [mm [_ Q]]. apply rbind_ok in Q. destruct Q as [cs [_ Q]]. apply ok_pair_inv in Q. destruct Q as [<- _]. cbn [nd_n]. rewrite NE in EL. cbn in EL. injection EL as <-. reflexivity.
    - destruct (start_inv M P (with_stops c d ms m1) a e t0 e0 dd HN) as [T _]; [congruence|]. eapply loop_same; eauto. }
  unfold tree_fit. cbn [rbind]. cbn [with_stops tc_bin tc_make_discrete tc_splitter].
  match goal with |- context [if ?b then _ else Ok t0] => destruct b end.
  - destruct (data_to_discrete (t_data t0) 10) as [dd|]; cbn [rbind]; auto. destruct (tc_splitter c); auto. apply (G (Some dd)).
  - cbn [rbind]. destruct (tc_splitter c); auto. apply (G (t_dd t0)).
Qed.

(** Fitting succeeds on well-formed input. *)
From Coq Require Import List Arith Bool ZArith QArith Qcanon Lia Permutation Qround.
From Verif Require Import Base Num Rng Histogram Utils Criteria Solvers Tree Spec SolverSpec TreeSpec NumFacts ListFacts HistFacts HistAdd CritFacts ReductionFacts MakeHist SampleFacts HistProps HistProps2 ExactFacts ExactTotal ExactProps DrawFacts MabFacts MabLoop MabProps MabMore MabSim MabThms TreeFacts CountFacts TreeThms Terminate.
Import ListNotations.
Local Open Scope nat_scope.

(** ** What every node satisfies is preserved *)
Section Nodes.
Context (M : math) (c : tcfg) (Q : node -> Prop) (dd : option ddict).
Hypothesis Qsol : forall nd bins sf psf sv r q, Q nd -> Q (with_solution nd bins sf psf sv r q).
Hypothesis Qspl : forall nd b, Q nd -> Q (with_splittable nd b).
Hypothesis Qchi : forall nd l r, Q nd -> Q (with_children nd l r).
Hypothesis Qpre : forall nd p l v, Q nd -> Q (with_preds nd p l v).
Hypothesis Qnew : forall t p I d pr bins e nd e', t_dd t = dd -> node_new c t p I d pr bins e = Ok (nd, e') -> Q nd.

Definition all_q (t : tree) : Prop := t_dd t = dd /\ Forall Q (t_nodes t).

Lemma Forall_set {A} (P : A -> Prop) i x l : Forall P l -> P x -> Forall P (set_nth i x l).
Proof. intros F. revert i. induction F; intros [|i] H'; cbn; auto. Qed.
Lemma put_q t id nd : all_q t -> Q nd -> all_q (put_node t id nd).
Proof. intros [H1 H2] HQ. split; auto. cbn. now apply Forall_set. Qed.
Lemma pay_q t q : all_q t -> all_q (pay t q). Proof. auto. Qed.
Lemma q_nth t id nd : all_q t -> nth_res (t_nodes t) id = Ok nd -> Q nd.
Proof. intros [_ H] E. apply nth_res_ok, nth_error_In in E. rewrite Forall_forall in H. auto. Qed.
Lemma best_q nd b e nd' o e' : Q nd -> calculate_best_split M c nd b e = Ok (nd', o, e') -> Q nd'.
Proof.
  intros HQ H. unfold calculate_best_split in H. destruct (nd_computed nd); [injection H as <- _ _; auto|].
  apply rbind_ok in H. destruct H as [[[s bins] e1] [_ H]]. destruct s.
  - apply rbind_ok in H. destruct H as [sf [_ H]]. injection H as <- _ _. auto.
  - injection H as <- _ _. auto.
Qed.
Lemma scan_q s pl s' : all_q (sc_tree s) -> scan_leaf M c s pl = Ok s' -> all_q (sc_tree s').
Proof.
  intros HQ H. unfold scan_leaf in H. destruct (sc_stop s); [injection H as <-; auto|]. destruct pl as [pos id].
  apply rbind_ok in H. destruct H as [nd [A H]]. pose proof (q_nth _ _ _ HQ A) as QN.
  apply rbind_ok in H. destruct H as [ok [_ H]]. destruct ok; cbn [negb] in H; [|injection H as <-; cbn; apply put_q; auto].
  match type of H with (if ?b then _ else _) = _ => destruct b end; [injection H as <-; auto|].
  apply rbind_ok in H. destruct H as [[[n1 o1] e1] [E1 H]]. pose proof (best_q _ _ _ _ _ _ QN E1) as Q1.
  set (t2 := if nd_computed nd then _ else _) in H.
  assert (QT : all_q t2) by (unfold t2; destruct (nd_computed nd); repeat apply pay_q; apply put_q; auto).
  apply rbind_ok in H. destruct H as [[[spl n3] e3] [E3 H]]. injection H as <-. cbn [sc_tree]. apply put_q; auto.
  destruct (nd_splittable n1); [injection E3 as _ <- _; auto|]. apply rbind_ok in E3. destruct E3 as [[[b n2] e2] [E2 E3]]. injection E3 as _ <- _.
  apply Qspl. unfold check_splittable in E2. apply rbind_ok in E2. destruct E2 as [ok [_ E2]]. destruct ok; cbn [negb] in E2; [|injection E2 as _ <- _; auto].
  apply rbind_ok in E2. destruct E2 as [[[n4 o4] e4] [E4 E2]]. pose proof (best_q _ _ _ _ _ _ Q1 E4) as Q4. destruct o4; [|injection E2 as _ <- _; auto].
  apply rbind_ok in E2. destruct E2 as [[[n5 o5] e5] [E5 E2]]. pose proof (best_q _ _ _ _ _ _ Q4 E5) as Q5.
  apply rbind_ok in E2. destruct E2 as [red [_ E2]]. injection E2 as _ <- _. auto.
Qed.
Lemma split_q t id e t' e' : all_q t -> node_split M c t id e = Ok (t', e') -> all_q t'.
Proof.
  intros HQ H. unfold node_split in H. apply rbind_ok in H. destruct H as [nd0 [A H]]. pose proof (q_nth _ _ _ HQ A) as QN.
  apply rbind_ok in H. destruct H as [[] [_ H]]. apply rbind_ok in H. destruct H as [[nd e1] [E1 H]].
  assert (Q1 : Q nd).
  { destruct (nd_sf nd0); [injection E1 as <- _; auto|]. apply rbind_ok in E1. destruct E1 as [[[n1 o1] e2] [E2 E1]]. injection E1 as <- _. eapply best_q; eauto. }
  destruct (nd_red nd); [|injection H as <- _; apply put_q; auto].
  apply rbind_ok in H. destruct H as [[] [_ H]]. apply rbind_ok in H. destruct H as [D [_ H]]. apply rbind_ok in H. destruct H as [L [_ H]].
  apply rbind_ok in H. destruct H as [f [_ H]]. apply rbind_ok in H. destruct H as [v [_ H]]. apply rbind_ok in H. destruct H as [cl [_ H]]. cbv zeta in H.
  match type of H with (if ?b then _ else _) = _ => destruct b end; [discriminate|].
  apply rbind_ok in H. destruct H as [[nl e2] [C1 H]]. apply rbind_ok in H. destruct H as [[nr e3] [C2 H]]. apply ok_pair_inv in H. destruct H as [<- _].
  unfold create_child in C1, C2. destruct HQ as [HD HF]. split; [exact HD|]. cbn. apply Forall_app. split; [apply Forall_set; auto|].
  constructor; [|constructor; [|constructor]]; eapply Qnew; eauto.
Qed.
Lemma step_q t e t' e' b : all_q t -> fit_step M c t e = Ok (t', e', b) -> all_q t'.
Proof.
  intros HQ H. unfold fit_step in H. apply rbind_ok in H. destruct H as [s [ES H]].
  assert (QS : all_q (sc_tree s)).
  { apply (foldM_inv (scan_leaf M c) (fun s => all_q (sc_tree s)) _ _ _) in ES; auto. intros a s1 s2 _ X Y. eapply scan_q; eauto. }
  apply rbind_ok in H. destruct H as [[[t3 e3] cont] [EC H]]. apply rbind_ok in H. destruct H as [d [_ H]]. injection H as <- _ _.
  cut (all_q t3); [auto|]. destruct (sc_best s) as [[[pos id] x]|]; [|injection EC as <- _ _; auto].
  destruct (xlt x _); [|injection EC as <- _ _; auto]. apply rbind_ok in EC. destruct EC as [[t2 e2] [E2 EC]]. pose proof (split_q _ _ _ _ _ QS E2) as Q2.
  apply rbind_ok in EC. destruct EC as [nd [A EC]]. injection EC as <- _ _. cbn [fst] in *.
  assert (QN : Q nd) by (eapply (q_nth t2); eauto).
  destruct Q2 as [Q2 Q3]. split; [exact Q2|]. cbn. apply Forall_set; auto.
Qed.
End Nodes.

(** ** Totality of one step *)
Section Step.
Context (M : math) (c : tcfg) (D : list (list Qc)) (L : list Qc) (FS I0 : list nat) (b0 : option Z).
Notation inv := (tinv M c D L FS I0 b0).
Notation nok := (node_ok M c D L FS I0).

Definition posed (nd nd0 : node) : Prop :=
  nd_data nd0 = Some (map (fun i => map (cell D i) (nd_feats nd)) (nd_idcs nd)) /\
  nd_labels nd0 = Some (labels_at L (nd_idcs nd)) /\ same_frame nd nd0 /\
  (tc_log_split c = false -> nd_bins nd0 = tc_nb c).

Hypothesis Hdepth : tc_max_depth c <> DNone.
Hypothesis Hsolve : forall nd b e, nok nd -> dd_fine (nd_dd nd) -> eligible c L nd -> nd_left nd = None ->
  exists r, node_solve M c nd b e = Ok r.
Hypothesis Hfound : forall nd nd0 b e f v r q bins e', nok nd -> dd_fine (nd_dd nd) -> eligible c L nd -> posed nd nd0 ->
  node_solve M c nd0 b e = Ok (Found f v r q, bins, e') ->
  exists s x, nth_error (nd_feats nd) f = Some s /\ r = Fin x /\ (x < 0)%Qc /\
    (exists i, In i (nd_idcs nd) /\ (cell D i s <= v)%Qc) /\ (exists i, In i (nd_idcs nd) /\ (v < cell D i s)%Qc).
Hypothesis Hnew : forall t p I d pr bins e, t_data t = D -> t_labels t = L -> t_feats t = FS -> dd_fine (t_dd t) ->
  I <> [] -> incl I I0 -> exists r, node_new c t p I d pr bins e = Ok r.

Definition fine (t : tree) : Prop := dd_fine (t_dd t) /\ Forall (fun nd => dd_fine (nd_dd nd)) (t_nodes t).

Lemma fine_step t e t' e' b : fine t -> fit_step M c t e = Ok (t', e', b) -> fine t'.
Proof.
  intros [F1 F2] H. assert (G : all_q (fun nd => dd_fine (nd_dd nd)) (t_dd t) t'); [eapply step_q; [..|exact H]; auto; [|split; auto]|destruct G as [E1 E2]; split; auto; now rewrite E1].
  intros t0 p I d pr bins e0 nd e1 ED HN. unfold node_new in HN.
    apply rbind_ok in HN. destruct HN as [[fs g] [_ HN]]. apply rbind_ok in HN. destruct HN as [_ [_ HN]]. apply rbind_ok in HN. destruct HN as [dd [_ HN]].
    apply rbind_ok in HN. destruct HN as [ll [EL HN]]. apply rbind_ok in HN. destruct HN as [mm [_ HN]]. apply rbind_ok in HN. destruct HN as [cs [_ HN]].
    apply ok_pair_inv in HN. destruct HN as [<- _]. cbn. now rewrite ED.
Qed.

Lemma constraints_total nd : nok nd -> nd_left nd = None -> exists b, check_constraints c nd = Ok b.
Proof.
  intros N LF. unfold check_constraints. destruct (no_data _ _ _ _ _ _ _ N LF) as [_ EL]. rewrite EL.
  destruct (tc_max_depth c); [contradiction| |]; cbn [rbind negb opt_res].
  - destruct (tc_min_split c <? nd_n nd); cbn; eauto.
  - destruct (_ <? _)%Z; cbn; eauto. destruct (tc_min_split c <? nd_n nd); cbn; eauto.
Qed.

Lemma best_total nd b e : nok nd -> dd_fine (nd_dd nd) -> nd_left nd = None -> eligible c L nd -> exists r, calculate_best_split M c nd b e = Ok r.
Proof.
  intros N F LF EG. unfold calculate_best_split. destruct (nd_computed nd); [eauto|].
  destruct (Hsolve nd b e N F EG LF) as [[[s bins] e'] ES]. rewrite ES. cbn [rbind]. destruct s as [f v r q|q]; [|eauto].
  destruct (no_data _ _ _ _ _ _ _ N LF) as [E1 E2].
  destruct (Hfound nd nd b e f v r q bins e') as [s [x [E _]]]; auto.
  - split; auto. split; auto. split; [apply same_frame_refl|]. apply (no_bins _ _ _ _ _ _ _ N).
  - unfold nth_res. rewrite E. cbn. eauto.
Qed.

Lemma splittable_total t nd e : nok nd -> dd_fine (nd_dd nd) -> nd_left nd = None -> nd_computed nd = true -> exists r, check_splittable M c t nd e = Ok r.
Proof.
  intros N F LF C. unfold check_splittable. destruct (constraints_total nd N LF) as [ok EC]. rewrite EC. cbn [rbind].
  destruct ok; cbn [negb]; [|eauto]. unfold calculate_best_split. rewrite C. cbn [rbind]. destruct (nd_red nd) eqn:R; [|eauto]. rewrite C. cbn. eauto.
Qed.

Lemma scan_total t0 s pos id : scan_ok M c D L FS I0 b0 t0 s -> fine (sc_tree s) -> nth_error (t_leaves t0) pos = Some id ->
  exists s', scan_leaf M c s (pos, id) = Ok s'.
Proof.
  intros [T EL ES EN B] [F1 F2] P. unfold scan_leaf. destruct (sc_stop s); [eauto|]. cbv zeta.
  assert (I : In id (t_leaves (sc_tree s))) by (rewrite EL; eapply nth_error_In; eauto).
  apply (ti_leaves _ _ _ _ _ _ _ _ T) in I. destruct I as [nd [A LF]]. unfold nth_res. unfold node_at in A. rewrite A. cbn [rbind].
  pose proof (ti_node _ _ _ _ _ _ _ _ T _ _ A) as N.
  assert (FN : dd_fine (nd_dd nd)) by (rewrite Forall_forall in F2; apply F2; eapply nth_error_In; eauto).
  destruct (constraints_total nd N LF) as [ok EC]. rewrite EC. cbn [rbind]. destruct ok; cbn [negb]; [|eauto].
  match goal with |- exists _, (if ?b then _ else _) = _ => destruct b end; [eauto|].
  pose proof (constraints_eligible _ _ _ _ _ _ _ N LF EC) as EG.
  destruct (best_total nd (t_budget (sc_tree s)) (sc_env s) N FN LF EG) as [[[nd1 o1] e1] EB]. rewrite EB. cbn [rbind].
  destruct (best_split_ok _ _ _ _ _ _ _ _ _ _ _ _ N LF (or_intror EC) EB) as [K1 [K2 [K3 [K4 [K5 K6]]]]].
  destruct (nd_splittable nd1) eqn:SP; cbn [rbind]; [eauto|].
  match goal with |- context [check_splittable M c ?t nd1 e1] => destruct (splittable_total t nd1 e1 K2) as [[[b n2] e2] ECS] end; auto.
  - now rewrite (sf_dd _ _ (ss_frame _ _ K3)).
  - now rewrite (ss_left _ _ K3).
  - rewrite ECS. cbn. eauto.
Qed.

Lemma scan_q_fine s pl s' : fine (sc_tree s) -> scan_leaf M c s pl = Ok s' -> fine (sc_tree s').
Proof.
  intros [F1 F2] H. assert (G : all_q (fun nd => dd_fine (nd_dd nd)) (t_dd (sc_tree s)) (sc_tree s')); [eapply scan_q; [..|exact H]; auto; split; auto|].
  destruct G as [E1 E2]. split; auto. now rewrite E1.
Qed.

Lemma scan_all_total t e : inv t -> fine t -> exists s,
  foldM (scan_leaf M c) {| sc_tree := t; sc_env := e; sc_best := None; sc_stop := false |} (combine (seq 0 (length (t_leaves t))) (t_leaves t)) = Ok s /\ fine (sc_tree s).
Proof.
  intros T F. set (s0 := {| sc_tree := t; sc_env := e; sc_best := None; sc_stop := false |}).
  assert (S0 : scan_ok M c D L FS I0 b0 t s0) by (constructor; cbn; auto).
  assert (F0 : fine (sc_tree s0)) by auto. revert S0 F0. generalize s0. clear s0.
  assert (G : forall l k, (forall j id, nth_error l j = Some id -> nth_error (t_leaves t) (k + j) = Some id) ->
     forall s, scan_ok M c D L FS I0 b0 t s -> fine (sc_tree s) -> exists s', foldM (scan_leaf M c) s (combine (seq k (length l)) l) = Ok s' /\ fine (sc_tree s')).
  { induction l as [|id l IH]; intros k HL s SO FO; cbn [length seq combine foldM]; [eauto|].
    assert (P : nth_error (t_leaves t) k = Some id) by (rewrite <- (Nat.add_0_r k); apply HL; reflexivity).
    destruct (scan_total t s k id SO FO P) as [s1 E1]. rewrite E1. cbn [rbind].
    apply IH; [|eapply scan_leaf_ok; eauto|eapply scan_q_fine; eauto].
    intros j i E. replace (S k + j) with (k + S j) by lia. now apply HL. }
  intros s SO FO. apply (G (t_leaves t) 0); auto.
Qed.

Lemma depth_total t : inv t -> exists d, get_depth t = Ok d.
Proof.
  intros T. unfold get_depth. assert (G : forall l, (forall id, In id l -> exists nd, node_at t id nd) ->
    exists ds, mapM (fun id => do nd <- nth_res (t_nodes t) id; Ok (nd_depth nd)) l = Ok ds /\ length ds = length l).
  { induction l as [|id l IH]; intros H; cbn [mapM]; [eexists; split; reflexivity|]. destruct (H id (or_introl eq_refl)) as [nd A]. unfold node_at in A. assert (X : nth_res (t_nodes t) id = Ok nd) by (unfold nth_res; now rewrite A). rewrite X. cbn [rbind].
    destruct IH as [ds [E1 E2]]; [intros; apply H; now right|]. rewrite E1. cbn. eexists; split; [reflexivity|cbn; congruence]. }
  destruct (G (t_leaves t)) as [ds [E1 E2]].
  { intros id I. apply (ti_leaves _ _ _ _ _ _ _ _ T) in I. destruct I as [nd [A _]]. eauto. }
  rewrite E1. cbn [rbind]. destruct ds; [|eauto]. destruct (ti_splits _ _ _ _ _ _ _ _ T). cbn in E2. lia.
Qed.

Lemma set_depth_inv t d : get_depth (set_depth t d) = get_depth t. Proof. reflexivity. Qed.

Lemma split_total t id nd x e : inv t -> fine t -> node_at t id nd -> nd_left nd = None -> eligible c L nd -> nd_red nd = Some x ->
  exists r, node_split M c t id e = Ok r.
Proof.
  intros T [F1 F2] A LF EG RX. pose proof (ti_node _ _ _ _ _ _ _ _ T _ _ A) as N.
  assert (FN : dd_fine (nd_dd nd)) by (rewrite Forall_forall in F2; apply F2; eapply nth_error_In; eauto).
  unfold node_split. unfold nth_res. unfold node_at in A. rewrite A. cbn [rbind]. change (node_at t id nd) in A.
  destruct (ti_leaf _ _ _ _ _ _ _ _ T _ _ A LF) as [RN SD]. rewrite SD. cbn [negb guard rbind].
  destruct (nd_sf nd) as [s|] eqn:SF; [|rewrite (no_nosplit _ _ _ _ _ _ _ N SF) in RX; discriminate]. cbn [rbind].
  destruct (no_solved _ _ _ _ _ _ _ N s SF) as [f [v [x' [PF [SV [RX' SS]]]]]]. rewrite RX in RX'. injection RX' as <-. rewrite RX.
  destruct SS as (nd0 & b & e0 & r & q & bins & e' & H1 & H2 & H3 & H4 & H5 & H6 & H7 & H8).
  destruct (Hfound nd nd0 b e0 f v r q bins e' N FN EG (conj H2 (conj H3 (conj H4 H8))) H1) as (s' & y & G1 & G2 & G3 & [i1 [G4 G5]] & [i2 [G6 G7]]).
  rewrite H5 in G1. injection G1 as <-.
  assert (PP : (0 < nd_prop nd)%Qc).
  { rewrite (no_prop _ _ _ _ _ _ _ N). assert (0 < length (nd_idcs nd)) by (pose proof (no_ne _ _ _ _ _ _ _ N); destruct (nd_idcs nd); [contradiction|cbn; lia]).
    assert (0 < length I0). { destruct (nd_idcs nd) as [|i l] eqn:EI; [cbn in H; lia|]. pose proof (no_rows _ _ _ _ _ _ _ N i) as IN. rewrite EI in IN. specialize (IN (or_introl eq_refl)). destruct I0; [destruct IN|cbn; lia]. }
    unfold Qcdiv. apply qmult_lt_0; [now apply Nq_pos|]. now apply qinv_pos, Nq_pos. }
  assert (XN : xlt x (Fin 0) = true).
  { rewrite H6, G2. cbn. apply qlt_spec. replace 0%Qc with (0 * nd_prop nd)%Qc by ring. now apply Qcmult_lt_compat_r. }
  rewrite XN. cbn [guard rbind]. destruct (no_data _ _ _ _ _ _ _ N LF) as [ND NL]. rewrite ND, NL, PF, SV. cbn [opt_res rbind].
  assert (EC : col (map (fun i => map (cell D i) (nd_feats nd)) (nd_idcs nd)) f = Ok (map (fun i => cell D i s) (nd_idcs nd))).
  { unfold col. rewrite mapM_map. generalize (nd_idcs nd). induction l as [|i l IH]; auto. cbn [mapM]. unfold nth_res at 1. rewrite nth_error_map, H5. cbn [option_map rbind].
    rewrite IH. reflexivity. }
  rewrite EC. cbn [rbind]. destruct (split_filter v (fun i => cell D i s) (nd_idcs nd)) as [S1 S2]. rewrite S1, S2.
  set (LI := filter (fun i => qle (cell D i s) v) (nd_idcs nd)) in *. set (RI := filter (fun i => qlt v (cell D i s)) (nd_idcs nd)) in *.
  assert (I1 : In i1 LI) by (apply filter_In; split; auto; now apply qle_spec).
  assert (I2 : In i2 RI) by (apply filter_In; split; auto; now apply qlt_spec).
  assert (L1 : LI <> []) by (intros Z; rewrite Z in I1; destruct I1). assert (L2 : RI <> []) by (intros Z; rewrite Z in I2; destruct I2).
  replace ((length LI =? 0) || (length RI =? 0)) with false by (destruct LI, RI; try contradiction; reflexivity).
  unfold create_child.
  destruct (Hnew t (Some id) LI (S (nd_depth nd)) (nd_prop nd * (Nq (length LI) / Nq (length (labels_at L (nd_idcs nd)))))%Qc (nd_bins nd) e) as [[nl el] E1]; auto; try apply T.
  { intros i I. apply (no_rows _ _ _ _ _ _ _ N). unfold LI in I. now apply filter_In in I. }
  rewrite E1. cbn [rbind fst snd].
  destruct (Hnew t (Some id) RI (S (nd_depth nd)) (nd_prop nd * (Nq (length RI) / Nq (length (labels_at L (nd_idcs nd)))))%Qc (nd_bins nd) el) as [[nr er] E2]; auto; try apply T.
  { intros i I. apply (no_rows _ _ _ _ _ _ _ N). unfold RI in I. now apply filter_In in I. }
  rewrite E2. cbn. eauto.
Qed.

Lemma step_total t e : inv t -> fine t -> exists r, fit_step M c t e = Ok r.
Proof.
  intros T F. unfold fit_step. destruct (scan_all_total t e T F) as [s [ES FS']]. rewrite ES. cbn [rbind]. cbv zeta.
  destruct (scan_ok_all _ _ _ _ _ _ _ _ _ _ T ES) as [T1 L1 S1 NN1 B1].
  assert (NS : forall x : xn, exists d, get_depth (sc_tree s) = Ok d) by (intros; eapply depth_total; eauto).
  destruct (sc_best s) as [[[pos id] x]|]; cbn [rbind].
  2:{ destruct (NS PInf) as [d Ed]. rewrite Ed. cbn. eauto. }
  destruct (xlt x (Fin (tc_min_imp c))) eqn:X; cbn [rbind].
  2:{ destruct (NS PInf) as [d Ed]. rewrite Ed. cbn. eauto. }
  destruct B1 as [P [nd [A [LF [CC [RX SP]]]]]].
  pose proof (constraints_eligible _ _ _ _ _ _ _ (ti_node _ _ _ _ _ _ _ _ T1 _ _ A) LF CC) as EG.
  destruct (split_total (sc_tree s) id nd x (sc_env s) T1 FS' A LF EG RX) as [[t2 e2] E2]. rewrite E2. cbn [rbind fst snd].
  destruct (fit_step_split _ _ _ _ _ _ _ _ _ _ _ _ _ _ _ T1 P A LF CC RX X E2) as [nl [nr [nd' [TE [A' [EN' [TI NW]]]]]]].
  unfold nth_res. cbn [inc_splits t_nodes]. unfold node_at in A'. rewrite A'. cbn [rbind].
  match goal with |- exists _, (do d <- get_depth ?t; _) = _ => assert (TT : inv t) end.
  { rewrite EN' in *. cbn [with_children nd_left nd_right nd_pval].
    assert (W : put_node (inc_splits t2) id (with_preds (with_children nd (length (t_nodes (sc_tree s))) (S (length (t_nodes (sc_tree s))))) None None None) = inc_splits t2).
    { unfold put_node. cbn [inc_splits t_nodes]. rewrite set_nth_same by exact A'. reflexivity. }
    rewrite W. assert (LE : t_leaves t2 = t_leaves (sc_tree s)) by (rewrite TE; reflexivity). cbn [inc_splits t_leaves]. rewrite !LE. exact TI. }
  destruct (depth_total _ TT) as [d Ed]. rewrite Ed. cbn. eauto.
Qed.

Lemma loop_total fuel : forall t e, inv t -> fine t -> tc_max_leaves c <> Some 0 ->
  (forall m, tc_max_leaves c = Some m -> length (t_leaves t) <= m) ->
  fit_loop M c fuel t e = Err OutOfFuel \/ exists r, fit_loop M c fuel t e = Ok r.
Proof.
  induction fuel as [|fuel IH]; intros t e T F M0 LM; cbn [fit_loop].
  - assert (G : exists b, match tc_max_leaves c with None => Ok false | Some m => if length (t_leaves t) =? m then Ok true else if m <? length (t_leaves t) then Err GenericException else Ok false end = Ok b).
    { destruct (tc_max_leaves c) as [m|]; [|eauto]. specialize (LM m eq_refl). destruct (_ =? _); [eauto|]. destruct (Nat.ltb_spec m (length (t_leaves t))); [lia|eauto]. }
    destruct G as [b ->]. cbn [rbind]. destruct b; eauto.
  - assert (G : exists b, match tc_max_leaves c with None => Ok false | Some m => if length (t_leaves t) =? m then Ok true else if m <? length (t_leaves t) then Err GenericException else Ok false end = Ok b /\
       (b = false -> forall m, tc_max_leaves c = Some m -> length (t_leaves t) < m)).
    { destruct (tc_max_leaves c) as [m|]; [|exists false; split; auto; discriminate]. specialize (LM m eq_refl). destruct (Nat.eqb_spec (length (t_leaves t)) m); [exists true; split; auto; discriminate|].
      destruct (Nat.ltb_spec m (length (t_leaves t))); [lia|]. exists false. split; auto. intros _ m' E. injection E as <-. lia. }
    destruct G as [b [-> LT]]. cbn [rbind]. destruct b; [eauto|].
    destruct (step_total t e T F) as [[[t1 e1] cont] ES]. rewrite ES. cbn [rbind]. destruct cont; [|eauto].
    destruct (fit_step_tinv _ _ _ _ _ _ _ _ _ _ _ _ T ES) as [T' [_ [C1 _]]]. apply IH; auto.
    + eapply fine_step; eauto.
    + intros m Em. specialize (LT eq_refl m Em). destruct (ti_splits _ _ _ _ _ _ _ _ T), (ti_splits _ _ _ _ _ _ _ _ T'). rewrite C1 in * by auto. lia.
Qed.
End Step.

(** ** The search problem of a node *)
Section Problem.
Context (M : math) (c : tcfg) (a : targs) (W : nat) (TR : trainable c a W).
Notation D := (ta_data a).
Notation L := (ta_labels a).
Notation nok := (node_ok M c D L (train_feats a) (train_rows a)).

Definition node_data (nd : node) : list (list Qc) := map (fun i => map (cell D i) (nd_feats nd)) (nd_idcs nd).
Definition node_labels (nd : node) : list Qc := labels_at L (nd_idcs nd).
(** The configuration of the solver call. *)
Definition node_cfg (nd : node) (bins : nat) (m : measure) : scfg :=
  {| s_class := tc_class c; s_measure := m; s_bin := tc_bin c; s_nb := bins; s_minmax := nd_minmax nd; s_dd := nd_dd nd |}.
Definition mab_measure : measure := match tc_crit c with MAuto => (if tc_class c then GINI else MSE) | x => x end.
Definition node_bins (nd : node) : nat := if tc_log_split c then Nat.log2 (length (nd_idcs nd)) + 1 else tc_nb c.

Lemma mm_spec mm fs r : reindex_minmax mm fs = Ok r ->
  match mm with None => r = None | Some (mn, mx) => r = Some (map (fun f => nth f mn 0%Qc) fs, map (fun f => nth f mx 0%Qc) fs) /\
     (forall f, In f fs -> f < length mn /\ f < length mx) end.
Proof.
  unfold reindex_minmax. destruct mm as [[mn mx]|]; [|intros H; now injection H]. intros H.
  apply rbind_ok in H. destruct H as [x [E1 H]]. apply rbind_ok in H. destruct H as [y [E2 H]]. injection H as <-.
  rewrite (take_idx_map _ _ _ 0%Qc E1), (take_idx_map _ _ _ 0%Qc E2). split; auto. intros f I. apply In_nth_error in I. destruct I as [k I].
  destruct (mapM_nth' _ _ _ _ _ E1 I) as [u [_ U]]. destruct (mapM_nth' _ _ _ _ _ E2 I) as [w [_ V]]. apply nth_res_ok in U, V.
  split; apply nth_error_Some; congruence.
Qed.

Lemma choice_len pool k t l t' : choice_norepl pool k t = Ok (l, t') -> length l = k.
Proof.
  unfold choice_norepl. destruct (length pool <? k) eqn:E; [discriminate|]. apply Nat.ltb_ge in E. intros H. injection H as H.
  destruct (pick_k_spec k pool t E) as [rest [_ P]]. rewrite H in P. exact P.
Qed.
Lemma sqrt_up_pos n : 0 < n -> 0 < Nat.sqrt_up n.
Proof. intros. now apply Nat.sqrt_up_pos. Qed.

Lemma ceil_bounds (r : Qc) n : (0 < r)%Qc -> (r <= 1)%Qc -> 0 < n -> (0 < qceil (r * Nq n) <= Z.of_nat n)%Z.
Proof.
  intros R1 R2 NP. unfold qceil.
  assert (P : (0 < this (r * Nq n)%Qc)%Q). { change (0 < r * Nq n)%Qc. apply qmult_lt_0; auto. now apply Nq_pos. }
  assert (Q : (this (r * Nq n)%Qc <= inject_Z (Z.of_nat n))%Q).
  { pose proof (Nq_pos n NP) as N1. assert (G : (r * Nq n <= 1 * Nq n)%Qc) by (apply Qcmult_le_compat_r; auto; now apply Qclt_le_weak).
    unfold Qcle in G. eapply Qle_trans; [exact G|]. rewrite Qcmult_1_l. unfold Nq. rewrite Zq_this. apply Qle_refl. }
  split.
  - pose proof (Qle_ceiling (this (r * Nq n)%Qc)) as C. rewrite Zlt_Qlt. eapply Qlt_le_trans; [exact P|]. exact C.
  - rewrite <- (Qceiling_Z (Z.of_nat n)). now apply Qceiling_resp_le.
Qed.

(** Choosing features succeeds and gives at least one. *)
Lemma choose_total g : exists fs g', choose_features (train_feats a) (tc_fsub c) g = Ok (fs, g').
Proof.
  unfold choose_features. pose proof (tr_sub _ _ _ TR) as S. pose proof (tr_feats _ _ _ TR) as NE.
  assert (NP : 0 < length (train_feats a)) by (destruct (train_feats a); [contradiction|cbn; lia]).
  assert (CN : forall k, k <= length (train_feats a) -> exists fs g', choice_norepl (train_feats a) k g = Ok (fs, g')).
  { intros k LE. unfold choice_norepl. destruct (Nat.ltb_spec (length (train_feats a)) k); [lia|]. destruct (pick_k k (train_feats a) g) as [x y]. eauto. }
  destruct (tc_fsub c); try contradiction; [eauto| | |].
  - apply CN. apply Nat.sqrt_up_le_lin. lia.
  - destruct (Z.ltb_spec k 0); [lia|]. apply CN. lia.
  - destruct S as [S1 S2]. pose proof (ceil_bounds r _ S1 S2 NP). destruct (Z.ltb_spec (qceil (r * Nq (length (train_feats a)))) 0); [lia|]. apply CN. lia.
Qed.
Lemma choose_nonempty g fs g' : choose_features (train_feats a) (tc_fsub c) g = Ok (fs, g') -> 0 < length fs.
Proof.
  unfold choose_features. pose proof (tr_sub _ _ _ TR) as S. pose proof (tr_feats _ _ _ TR) as NE.
  assert (NP : 0 < length (train_feats a)) by (destruct (train_feats a); [contradiction|cbn; lia]).
  destruct (tc_fsub c); try contradiction.
  - intros H. injection H as <- _. auto.
  - intros H. rewrite (choice_len _ _ _ _ _ H). now apply sqrt_up_pos.
  - destruct (Z.ltb_spec k 0); [lia|]. intros H'. rewrite (choice_len _ _ _ _ _ H'). lia.
  - destruct S as [S1 S2]. pose proof (ceil_bounds r _ S1 S2 NP). destruct (Z.ltb_spec (qceil (r * Nq (length (train_feats a)))) 0); [lia|].
    intros H'. rewrite (choice_len _ _ _ _ _ H'). lia.
Qed.

Lemma row_width i : In i (train_rows a) -> exists r, nth_error D i = Some r /\ length r = W.
Proof.
  intros I. pose proof (tr_rows_in _ _ _ TR i I) as LT. rewrite (tr_len _ _ _ TR) in LT.
  destruct (nth_error D i) as [r|] eqn:E; [|apply nth_error_None in E; lia]. exists r. split; auto. apply (tr_rect _ _ _ TR). eapply nth_error_In; eauto.
Qed.

Lemma new_total t p I d pr bins e : t_data t = D -> t_labels t = L -> t_feats t = train_feats a -> dd_fine (t_dd t) ->
  incl I (train_rows a) -> exists r, node_new c t p I d pr bins e = Ok r.
Proof.
  intros ED EL EF DF IN. unfold node_new. rewrite ED, EL, EF. destruct (choose_total (e_gen e)) as [fs [g EC]]. rewrite EC. cbn [rbind]. cbv zeta.
  assert (FI : forall f, In f fs -> f < W).
  { intros f If. apply (tr_feats_in _ _ _ TR). unfold choose_features in EC. destruct (tc_fsub c) eqn:X; try discriminate.
    - injection EC as <- _. auto.
    - eapply choice_norepl_incl; eauto.
    - destruct (k <? 0)%Z; [discriminate|]. eapply choice_norepl_incl; eauto.
    - destruct (_ <? 0)%Z; [discriminate|]. eapply choice_norepl_incl; eauto. }
  assert (E1 : exists u : unit, match t_dd t with None => Ok tt | Some d0 => do _ <- remap_discrete_features fs d0; Ok tt end = Ok u).
  { destruct (t_dd t) as [dd|]; [|eauto]. unfold remap_discrete_features. destruct (dd_items dd) eqn:ID; [cbn; eauto|]. cbn in DF.
    destruct (mapM_total (dd_get dd) fs) as [vs E]. { intros f _. unfold dd_get. rewrite DF. destruct (assoc f (dd_items dd)); eauto. }
    rewrite E. cbn. eauto. }
  destruct E1 as [u E1]. rewrite E1. cbn [rbind].
  assert (E2 : exists x, get_subset_2d D I fs = Ok x).
  { unfold get_subset_2d. apply mapM_total. intros i Ii. destruct (row_width i (IN i Ii)) as [r [Er Lr]]. unfold nth_res at 1. rewrite Er. cbn [rbind].
    apply mapM_total. intros f If. unfold nth_res. destruct (nth_error r f) eqn:Z; [eauto|]. apply nth_error_None in Z. specialize (FI f If). lia. }
  destruct E2 as [x E2]. rewrite E2. cbn [rbind].
  assert (E3 : exists y, take_idx L I = Ok y).
  { unfold take_idx. apply mapM_total. intros i Ii. unfold nth_res. pose proof (tr_rows_in _ _ _ TR i (IN i Ii)). destruct (nth_error L i) eqn:Z; [eauto|]. apply nth_error_None in Z. lia. }
  destruct E3 as [y E3]. rewrite E3. cbn [rbind].
  assert (E4 : exists mm, reindex_minmax (tc_minmax c) fs = Ok mm).
  { unfold reindex_minmax. pose proof (tr_minmax _ _ _ TR) as MM. destruct (tc_minmax c) as [[mn mx]|]; [|eauto]. destruct MM as [M1 [M2 _]].
    assert (G : forall l : list Qc, W <= length l -> exists z, take_idx l fs = Ok z).
    { intros l LE. unfold take_idx. apply mapM_total. intros f If. specialize (FI f If). unfold nth_res. destruct (nth_error l f) eqn:Z; [eauto|]. apply nth_error_None in Z. lia. }
    destruct (G mn M1) as [z1 Z1]. destruct (G mx M2) as [z2 Z2]. rewrite Z1, Z2. cbn. eauto. }
  destruct E4 as [mm E4]. rewrite E4. cbn [rbind].
  assert (E5 : exists cs, (if tc_class c then counts_of_labels (tc_classes c) y else Ok []) = Ok cs).
  { destruct (tc_class c) eqn:IC; [|eauto]. destruct (tr_classes _ _ _ TR IC) as [C1 C2]. apply counts_of_labels_total; auto.
    intros l Il. rewrite (take_idx_map _ _ _ 0%Qc E3) in Il. apply in_map_iff in Il. destruct Il as [i [<- Ii]]. apply C1. auto. }
  destruct E5 as [cs E5]. rewrite E5. cbn. eauto.
Qed.

Lemma node_feats_nonempty nd : nok nd -> 0 < length (nd_feats nd).
Proof. intros N. destruct (no_choice _ _ _ _ _ _ _ N) as [g [g' E]]. eapply choose_nonempty; eauto. Qed.

Lemma node_solvable nd bins m : nok nd -> dd_fine (nd_dd nd) -> m = tc_crit c \/ m = mab_measure ->
  match tc_bin c with LINEAR => 2 <= bins | IDENTITY => True | RANDOM => 1 <= bins | _ => False end ->
  solvable (node_cfg nd bins m) (node_data nd) (node_labels nd) (length (nd_feats nd)).
Proof.
  intros N DF HM HBI. constructor; cbn [node_cfg s_bin s_nb s_minmax s_dd s_class s_measure]; auto.
  - intros r I. apply in_map_iff in I. destruct I as [i [<- _]]. apply map_length.
  - unfold node_data. pose proof (no_ne _ _ _ _ _ _ _ N). destruct (nd_idcs nd); [contradiction|discriminate].
  - unfold node_data, node_labels, labels_at. now rewrite !map_length.
  - pose proof (mm_spec _ _ _ (no_mm _ _ _ _ _ _ _ N)) as MM. pose proof (tr_minmax _ _ _ TR) as TM.
    destruct (tc_minmax c) as [[mn mx]|]; [|rewrite MM; auto]. destruct MM as [-> MI]. rewrite !map_length. split; auto. split; auto.
    intros f x y Ex Ey. rewrite nth_error_map in Ex, Ey. destruct (nth_error (nd_feats nd) f) as [s|] eqn:Es; [|discriminate]. cbn in Ex, Ey.
    injection Ex as <-. injection Ey as <-. destruct (MI s (nth_error_In _ _ Es)) as [L1 L2]. destruct TM as [_ [_ TM]].
    apply (TM s); now apply nth_error_nth'.
  - destruct (nd_dd nd) as [d|]; auto. intros f _. unfold dd_get. cbn in DF. rewrite DF. destruct (assoc f (dd_items d)); eauto.
  - pose proof (tr_crit _ _ _ TR) as TC.
    assert (LE : length (nodup Qc_eq_dec (node_labels nd)) <= length (nodup Qc_eq_dec (labels_at L (train_rows a)))).
    { apply NoDup_incl_length; [apply NoDup_nodup|]. intros x I. apply nodup_In in I. apply nodup_In. unfold node_labels, labels_at in *.
      apply in_map_iff in I. destruct I as [i [<- I]]. apply in_map_iff. exists i. split; auto. apply (no_rows _ _ _ _ _ _ _ N). auto. }
    unfold mab_measure in HM. destruct (tc_class c).
    + destruct TC as [E|[E|[E L2]]]; rewrite E in HM; destruct HM as [-> | ->]; auto; right; right; split; auto; lia.
    + destruct TC as [E|E]; rewrite E in HM; destruct HM as [-> | ->]; auto.
Qed.

(** A node that may be split has a feature with enough candidates. *)
Lemma node_candidates nd bins m k : nok nd -> dd_fine (nd_dd nd) -> m = tc_crit c \/ m = mab_measure ->
  2 <= k -> enough_bins c a k -> eligible c L nd -> bins = node_bins nd ->
  solvable (node_cfg nd bins m) (node_data nd) (node_labels nd) (length (nd_feats nd)) /\
  exists E f, (forall f, f < length (nd_feats nd) -> candidates (tc_bin c) (nbins (node_cfg nd bins m) (node_data nd)) (nd_minmax nd) (node_data nd) f (E f)) /\
    f < length (nd_feats nd) /\ E f <> [] /\ (tc_bin c <> IDENTITY -> k <= length (E f)).
Proof.
  intros N DF HM K2 [EB1 EB2] [_ [_ VAR]] HBN.
  assert (NI : 2 <= length (nd_idcs nd)).
  { destruct VAR as [x [y [I1 [I2 NE]]]]. unfold labels_at in *. destruct (nd_idcs nd) as [|i [|j l]]; cbn in *; try tauto; try lia.
    destruct I1 as [<-|[]], I2 as [<-|[]]. contradiction. }
  assert (KB : tc_bin c = LINEAR \/ tc_bin c = RANDOM -> k <= bins).
  { intros Z. specialize (EB1 Z). rewrite HBN. unfold node_bins. destruct (tc_log_split c); auto.
    assert (1 <= Nat.log2 (length (nd_idcs nd))). { change 1 with (Nat.log2 2). now apply Nat.log2_le_mono. } lia. }
  assert (S : solvable (node_cfg nd bins m) (node_data nd) (node_labels nd) (length (nd_feats nd))).
  { apply node_solvable; auto. destruct (tc_bin c); auto; try contradiction; [assert (k <= bins) by auto; lia| assert (k <= bins) by auto; lia]. }
  split; auto. pose proof (node_feats_nonempty nd N) as W1.
  destruct (make_histograms_total (tc_class c) (node_data nd) (node_labels nd) (nd_minmax nd) (nd_dd nd) (tc_bin c) (bins_of (node_cfg nd bins m) (length (node_data nd))) (repeat 0 0) (length (nd_feats nd))) as [mh EM]; try apply S.
  { apply (sv_covers _ _ _ _ S). } { destruct (tc_bin c); auto; contradiction. }
  destruct (sv_candidates (node_cfg nd bins m) _ _ _ S mh _ EM) as [_ HC].
  exists (edges_of (mh_hists mh)).
  assert (HC' : forall f, f < length (nd_feats nd) -> candidates (tc_bin c) (nbins (node_cfg nd bins m) (node_data nd)) (nd_minmax nd) (node_data nd) f (edges_of (mh_hists mh) f)) by (intros f Hf; now apply HC).
  clear HC EM.
  assert (DNE : node_data nd <> []) by apply S.
  destruct (tc_bin c) eqn:BT; try contradiction.
  - (* LINEAR *)
    assert (G : exists f, f < length (nd_feats nd) /\ forall lo hi, range_of (nd_minmax nd) (node_data nd) f lo hi -> lo <> hi).
    { pose proof (mm_spec _ _ _ (no_mm _ _ _ _ _ _ _ N)) as MM. destruct (tc_minmax c) as [[mn mx]|].
      - destruct MM as [-> MI]. exists 0. split; auto. intros lo hi [R1 R2]. rewrite nth_error_map in R1, R2.
        destruct (nth_error (nd_feats nd) 0) as [s|] eqn:Es; [|discriminate]. cbn in R1, R2. injection R1 as <-. injection R2 as <-.
        destruct (MI s (nth_error_In _ _ Es)) as [L1 L2]. apply (EB2 s); try now apply nth_error_nth'.
        apply (no_feats _ _ _ _ _ _ _ N). eapply nth_error_In; eauto.
      - rewrite MM. destruct EB2 as [FN CO]. destruct VAR as [x [y [I1 [I2 NE]]]]. unfold labels_at in *.
        apply in_map_iff in I1, I2. destruct I1 as [i [<- I1]]. destruct I2 as [j [<- I2]].
        assert (FE : nd_feats nd = train_feats a). { destruct (no_choice _ _ _ _ _ _ _ N) as [g [g' E]]. rewrite FN in E. cbn in E. now injection E. }
        assert (DF' : exists f, In f (train_feats a) /\ cell D i f <> cell D j f).
        { destruct (Exists_dec (fun f => cell D i f <> cell D j f) (train_feats a)) as [X|X].
          - intros f. destruct (Qc_eq_dec (cell D i f) (cell D j f)); [right|left]; auto.
          - apply Exists_exists in X. exact X.
          - exfalso. apply NE. apply CO; try (apply (no_rows _ _ _ _ _ _ _ N); auto). intros f If.
            destruct (Qc_eq_dec (cell D i f) (cell D j f)); auto. exfalso. apply X. apply Exists_exists. eauto. }
        destruct DF' as [s [Is Ds]]. rewrite <- FE in Is. apply In_nth_error in Is. destruct Is as [f Ef]. exists f. split; [apply nth_error_Some; congruence|].
        intros lo hi [[_ R1] [_ R2]] EQ. apply Ds. subst hi.
        assert (V : forall i0, In i0 (nd_idcs nd) -> In (cell D i0 s) (feature_values (node_data nd) f)).
        { intros i0 I0. unfold feature_values, node_data. rewrite map_map. apply in_map_iff. exists i0. split; auto.
          apply nth_error_nth. now rewrite nth_error_map, Ef. }
        transitivity lo; apply qle_antisym; auto. }
    destruct G as [f [Hf G]]. exists f. split; auto. split; auto. specialize (HC' f Hf). cbn [candidates] in HC'.
    destruct HC' as [lo [hi [RG [[Z _]|[_ EE]]]]]; [exfalso; eapply G; eauto|]. rewrite EE.
    assert (LN : length (map (fun b => (lo + (hi - lo) * (rat b / rat (nbins (node_cfg nd bins m) (node_data nd) - 1)))%Qc) (seq 0 (nbins (node_cfg nd bins m) (node_data nd)))) = bins).
    { rewrite map_length, seq_length. unfold nbins. cbn. now rewrite BT. }
    assert (k <= bins) by auto. split; [intros Z; rewrite Z in LN; cbn in LN; lia|]. intros _. rewrite LN. auto.
  - (* IDENTITY *)
    exists 0. split; auto. split; auto. split; [|intros Z; congruence]. specialize (HC' 0 W1). cbn [candidates] in HC'. destruct HC' as [_ IN].
    destruct (node_data nd) as [|r d]; [contradiction|]. intros Z. rewrite Z in IN. apply (IN (nth 0 r 0%Qc)). now left.
  - (* RANDOM *)
    exists 0. split; auto. split; auto. specialize (HC' 0 W1). cbn [candidates] in HC'. destruct HC' as (lo & hi & _ & _ & LN & _).
    unfold nbins in LN. cbn in LN. rewrite BT in LN. assert (k <= bins) by auto. split; [intros Z; rewrite Z in LN; cbn in LN; lia|]. intros _. lia.
Qed.

Lemma node_row_value nd f s i : nth_error (nd_feats nd) f = Some s -> nth f (map (cell D i) (nd_feats nd)) 0%Qc = cell D i s.
Proof. intros E. apply nth_error_nth. now rewrite nth_error_map, E. Qed.

(** A negative change on some of the node's rows: both sides get rows. *)
Lemma sides nd imp T f s v : nth_error (nd_feats nd) f = Some s -> T <> [] ->
  (forall r, In r T -> exists i, In i (nd_idcs nd) /\ fst r = map (cell D i) (nd_feats nd)) ->
  (reduction imp T f v < 0)%Qc ->
  (exists i, In i (nd_idcs nd) /\ (cell D i s <= v)%Qc) /\ (exists i, In i (nd_idcs nd) /\ (v < cell D i s)%Qc).
Proof.
  intros ES NT HT NEG.
  assert (VAL : forall r, In r T -> exists i, In i (nd_idcs nd) /\ value_of f r = cell D i s).
  { intros r I. destruct (HT r I) as [i [Ii E]]. exists i. split; auto. unfold value_of. rewrite E. now apply node_row_value. }
  split.
  - destruct (Exists_dec (fun r => is_left f v r = true) T) as [X|X]; [intros r; destruct (is_left f v r); auto; right; discriminate| |].
    + apply Exists_exists in X. destruct X as [r [I E]]. destruct (VAL r I) as [i [Ii Ei]]. exists i. split; auto. rewrite is_left_qle, Ei in E. now apply qle_spec.
    + exfalso. rewrite reduction_onesided in NEG; auto; [exact (Qclt_not_le _ _ NEG (Qcle_refl _))|]. right. intros r I. destruct (is_left f v r) eqn:E; auto. exfalso. apply X. apply Exists_exists. eauto.
  - destruct (Exists_dec (fun r => is_left f v r = false) T) as [X|X]; [intros r; destruct (is_left f v r); auto; right; discriminate| |].
    + apply Exists_exists in X. destruct X as [r [I E]]. destruct (VAL r I) as [i [Ii Ei]]. exists i. split; auto. rewrite is_left_qle, Ei in E.
      apply Qcnot_le_lt. intros Q. apply qle_spec in Q. congruence.
    + exfalso. rewrite reduction_onesided in NEG; auto; [exact (Qclt_not_le _ _ NEG (Qcle_refl _))|]. left. intros r I. destruct (is_left f v r) eqn:E; auto. exfalso. apply X. apply Exists_exists. eauto.
Qed.

Lemma posed_bins nd nd0 : nok nd -> posed c D L nd nd0 -> (if tc_log_split c then Nat.log2 (nd_n nd0) + 1 else nd_bins nd0) = node_bins nd.
Proof.
  intros N [_ [_ [F BN]]]. unfold node_bins. destruct (tc_log_split c); auto. now rewrite (sf_n _ _ F), (no_n _ _ _ _ _ _ _ N).
Qed.
Lemma posed_self nd : nok nd -> nd_left nd = None -> posed c D L nd nd.
Proof. intros N LF. destruct (no_data _ _ _ _ _ _ _ N LF). split; auto. split; auto. split; [apply same_frame_refl|apply (no_bins _ _ _ _ _ _ _ N)]. Qed.

(** The solver call of a node, unfolded. *)
Lemma solve_exact_eq nd nd0 b e : nok nd -> posed c D L nd nd0 -> tc_solver c = EXACT ->
  node_solve M c nd0 b e = rbind (solve_exactly M (node_cfg nd (node_bins nd) (tc_crit c)) (node_data nd) (node_labels nd) 0%Qc e) (fun r => Ok (fst r, node_bins nd, snd r)).
Proof.
  intros N PO SV. unfold node_solve. rewrite (posed_bins nd nd0 N PO). destruct PO as [H1 [H2 [F _]]]. rewrite H1, H2, SV. cbn [opt_res rbind].
  unfold node_cfg. rewrite (sf_minmax _ _ F), (sf_dd _ _ F). reflexivity.
Qed.
Lemma solve_mab_eq nd nd0 b e : nok nd -> posed c D L nd nd0 -> tc_solver c = MAB ->
  exists eps, node_solve M c nd0 b e = rbind (solve_mab M (node_cfg nd (node_bins nd) mab_measure) eps (tc_repl c) b (tc_batch c) (node_data nd) (node_labels nd) 0%Qc e) (fun r => Ok (fst r, node_bins nd, snd r)).
Proof.
  intros N PO SV. unfold node_solve. rewrite (posed_bins nd nd0 N PO). destruct PO as [H1 [H2 [F _]]]. rewrite H1, H2, SV. cbn [opt_res rbind].
  unfold node_cfg, mab_measure. rewrite (sf_minmax _ _ F), (sf_dd _ _ F). eexists. reflexivity.
Qed.

Lemma busy_one W' E f : f < W' -> E f <> [] -> busy_features W' E <> [].
Proof.
  intros Hf NE Z. assert (I : In f (busy_features W' E)).
  { unfold busy_features. apply filter_In. split; [apply in_seq; lia|]. destruct (E f); [contradiction|reflexivity]. }
  rewrite Z in I. destruct I.
Qed.
Lemma arm_count_ge W' E f : f < W' -> length (E f) <= arm_count W' E.
Proof.
  intros Hf. unfold arm_count. assert (I : In f (seq 0 W')) by (apply in_seq; lia). revert I. generalize (seq 0 W').
  induction l as [|x l IH]; [contradiction|]. intros [->|I]; cbn [map]; rewrite list_sum_cons; [lia|]. specialize (IH I). lia.
Qed.

Lemma in_combine_rows nd r : In r (combine (node_data nd) (node_labels nd)) -> exists i, In i (nd_idcs nd) /\ fst r = map (cell D i) (nd_feats nd).
Proof.
  destruct r as [x y]. intros I. apply in_combine_l in I. unfold node_data in I. apply in_map_iff in I. destruct I as [i [<- I]]. exists i. auto.
Qed.

Lemma exact_solves nd b e : tc_solver c = EXACT -> enough_bins c a 2 -> nok nd -> dd_fine (nd_dd nd) -> eligible c L nd -> nd_left nd = None ->
  exists r, node_solve M c nd b e = Ok r.
Proof.
  intros SV EB N DF EG LF. rewrite (solve_exact_eq nd nd b e N (posed_self nd N LF) SV).
  destruct (node_candidates nd (node_bins nd) (tc_crit c) 2 N DF (or_introl eq_refl) (le_n 2) EB EG eq_refl) as [S [E [f [HC [Hf [NE _]]]]]].
  destruct (exact_answers _ _ _ _ S M 0%Qc e E HC (busy_one _ _ _ Hf NE)) as [out [e1 H]]. rewrite H. cbn. eauto.
Qed.
Lemma exact_found nd nd0 b e f v r q bins e' : tc_solver c = EXACT ->
  (match tc_bin c with LINEAR => 2 <= node_bins nd | IDENTITY => True | RANDOM => 1 <= node_bins nd | _ => False end) ->
  nok nd -> dd_fine (nd_dd nd) -> posed c D L nd nd0 ->
  node_solve M c nd0 b e = Ok (Found f v r q, bins, e') ->
  exists s x, nth_error (nd_feats nd) f = Some s /\ r = Fin x /\ (x < 0)%Qc /\
    (exists i, In i (nd_idcs nd) /\ (cell D i s <= v)%Qc) /\ (exists i, In i (nd_idcs nd) /\ (v < cell D i s)%Qc).
Proof.
  intros SV HBI N DF PO H. rewrite (solve_exact_eq nd nd0 b e N PO SV) in H. apply rbind_ok in H. destruct H as [[out e1] [H1 H2]]. cbn [fst snd] in H2.
  assert (EO : out = Found f v r q) by congruence. subst out. clear H2.
  pose proof (node_solvable nd (node_bins nd) (tc_crit c) N DF (or_introl eq_refl) HBI) as S.
  destruct (exact_usable _ _ _ _ _ _ _ _ _ _ _ _ S H1) as [Hf [_ [x [RX XN]]]]. pose proof (exact_reported _ _ _ _ _ _ _ _ _ _ _ _ S H1) as RR.
  destruct (nth_error (nd_feats nd) f) as [s|] eqn:Es; [|apply nth_error_None in Es; lia]. exists s, x. split; auto. split; auto. split; auto.
  rewrite RX in RR. injection RR as RR.
  apply (sides nd (impurity M (node_cfg nd (node_bins nd) (tc_crit c))) (combine (node_data nd) (node_labels nd)) f s v Es); [|apply in_combine_rows|congruence].
  pose proof (sv_rows _ _ _ _ S) as NR. pose proof (sv_labels _ _ _ _ S) as NL. destruct (node_data nd), (node_labels nd); try contradiction; discriminate.
Qed.

Lemma mab_solves nd b e : tc_solver c = MAB -> 1 <= tc_batch c -> tc_bin c <> IDENTITY -> enough_bins c a 6 -> nok nd -> dd_fine (nd_dd nd) -> eligible c L nd -> nd_left nd = None ->
  exists r, node_solve M c nd b e = Ok r.
Proof.
  intros SV HB BT EB N DF EG LF. destruct (solve_mab_eq nd nd b e N (posed_self nd N LF) SV) as [eps ->].
  destruct (node_candidates nd (node_bins nd) mab_measure 6 N DF (or_intror eq_refl) ltac:(lia) EB EG eq_refl) as [S [E [f [HC [Hf [NE K6]]]]]].
  destruct (mab_answers M _ eps (tc_repl c) b (tc_batch c) _ _ 0%Qc _ e E S BT HB HC) as [out [e1 H]].
  { specialize (K6 BT). pose proof (arm_count_ge _ E f Hf). lia. }
  rewrite H. cbn. eauto.
Qed.
Lemma mab_found nd nd0 b e f v r q bins e' : tc_solver c = MAB -> tc_class c = true -> 1 <= tc_batch c -> tc_bin c <> IDENTITY -> enough_bins c a 6 ->
  nok nd -> dd_fine (nd_dd nd) -> eligible c L nd -> posed c D L nd nd0 ->
  node_solve M c nd0 b e = Ok (Found f v r q, bins, e') ->
  exists s x, nth_error (nd_feats nd) f = Some s /\ r = Fin x /\ (x < 0)%Qc /\
    (exists i, In i (nd_idcs nd) /\ (cell D i s <= v)%Qc) /\ (exists i, In i (nd_idcs nd) /\ (v < cell D i s)%Qc).
Proof.
  intros SV IC HB BT EB N DF EG PO H. destruct (solve_mab_eq nd nd0 b e N PO SV) as [eps EQ]. rewrite EQ in H. apply rbind_ok in H. destruct H as [[out e1] [H1 H2]]. cbn [fst snd] in H2.
  assert (EO : out = Found f v r q) by congruence. subst out. clear H2.
  destruct (node_candidates nd (node_bins nd) mab_measure 6 N DF (or_intror eq_refl) ltac:(lia) EB EG eq_refl) as [S [E0 [f0 [HC0 [Hf0 [NE0 K0]]]]]].
  destruct (mab_sampled _ _ _ _ _ _ _ _ _ _ _ _ _ S HB H1) as [E [HC HS]].
  assert (L5 : 5 < arm_count (length (nd_feats nd)) E).
  { specialize (K0 BT). assert (length (E f0) = length (E0 f0)) by (eapply candidates_length; eauto). pose proof (arm_count_ge _ E f0 Hf0). lia. }
  destruct (HS L5) as [Hf [_ [x [RX [XN SM]]]]]. destruct (SM IC) as [I [[NI RI] [_ XE]]].
  destruct (nth_error (nd_feats nd) f) as [s|] eqn:Es; [|apply nth_error_None in Es; lia]. exists s, x. split; auto. split; auto. split; auto.
  apply (sides nd (impurity M (node_cfg nd (node_bins nd) mab_measure)) (picked (node_data nd) (node_labels nd) I) f s v Es); [| |congruence].
  - unfold picked. destruct I; [contradiction|discriminate].
  - intros rw II. unfold picked in II. apply in_map_iff in II. destruct II as [k [<- Ik]]. cbn [fst]. specialize (RI k Ik).
    unfold node_data in *. rewrite map_length in RI. exists (nth k (nd_idcs nd) 0). split; [now apply nth_In|].
    set (g := fun i => map (cell D i) (nd_feats nd)). rewrite (nth_indep _ [] (g 0)) by (now rewrite map_length). rewrite map_nth. reflexivity.
Qed.

(** ** Fitting succeeds *)
Lemma tree_new_total P e : exists t0 e0, tree_new P c a e = Ok (t0, e0).
Proof.
  unfold tree_new. rewrite (proj2 (Nat.eqb_eq _ _) (eq_sym (tr_len _ _ _ TR))) || rewrite (proj2 (Nat.eqb_eq _ _) (tr_len _ _ _ TR)). cbn [guard rbind].
  assert (EF : match ta_feats a with Some l => Ok l | None => do r0 <- nth_res (ta_data a) 0; Ok (arange (length r0)) end = Ok (train_feats a)).
  { pose proof (tr_feats _ _ _ TR) as NF. unfold train_feats in *. destruct (ta_feats a); auto. destruct (ta_data a) as [|r d]; [contradiction|]. reflexivity. }
  rewrite EF. cbn [rbind]. cbv zeta.
  match goal with |- context [node_new c ?t ?p ?I ?d ?pr ?b ?e] => destruct (new_total t p I d pr b e) as [[nd e1] EN] end; auto.
  - apply (tr_dd _ _ _ TR).
  - unfold train_rows. destruct (ta_idcs a); apply incl_refl.
  - rewrite EN. cbn. eauto.
Qed.

Lemma discrete_total : exists d, data_to_discrete D 10 = Ok d /\ dd_default d = true.
Proof.
  unfold data_to_discrete. pose proof (tr_rows _ _ _ TR) as NR. assert (ND : exists r d, D = r :: d).
  { destruct D as [|r d] eqn:E; [|eauto]. exfalso. destruct (train_rows a) as [|i l] eqn:ER; [contradiction|].
    assert (I : In i (train_rows a)) by (rewrite ER; now left). apply (tr_rows_in _ _ _ TR) in I. rewrite (tr_len _ _ _ TR), E in I. cbn in I. lia. }
  destruct ND as [r [d ED]]. assert (LW : length r = W) by (apply (tr_rect _ _ _ TR); rewrite ED; now left).
  assert (N0 : nth_res D 0 = Ok r) by (rewrite ED; reflexivity). rewrite N0. cbn [rbind].
  destruct (mapM_total (fun f => do cl <- col D f; Ok (match collect_distinct [] cl with Some s => [(f, DSet s)] | None => [] end)) (seq 0 (length r))) as [items E].
  { intros f I. apply in_seq in I. destruct (col_total D f W (tr_rect _ _ _ TR)) as [cl EC]; [lia|]. rewrite EC. cbn. eauto. }
  rewrite E. cbn. eexists. split; reflexivity.
Qed.

Lemma fit_total P e : (tc_solver c = MAB -> 1 <= tc_batch c) ->
  (forall nd b e, nok nd -> dd_fine (nd_dd nd) -> eligible c L nd -> nd_left nd = None -> exists r, node_solve M c nd b e = Ok r) ->
  (forall nd nd0 b e f v r q bins e', nok nd -> dd_fine (nd_dd nd) -> eligible c L nd -> posed c D L nd nd0 ->
    node_solve M c nd0 b e = Ok (Found f v r q, bins, e') ->
    exists s x, nth_error (nd_feats nd) f = Some s /\ r = Fin x /\ (x < 0)%Qc /\
    (exists i, In i (nd_idcs nd) /\ (cell D i s <= v)%Qc) /\ (exists i, In i (nd_idcs nd) /\ (v < cell D i s)%Qc)) ->
  exists t, built P M c a e t.
Proof.
  intros HB HS HF. destruct (tree_new_total P e) as [t0 [e0 EN]].
  assert (G : exists r, tree_fit M c t0 (None, None) e0 = Ok r).
  { pose proof (built_terminates M c HB P a e t0 e0 EN) as NT. revert NT. unfold tree_fit. cbn [rbind]. rewrite (tr_splitter _ _ _ TR).
    destruct (new_spec _ _ _ _ _ _ EN) as (nd & e1 & ENN & ET & EE).
    assert (RD : nd_dd nd = ta_dd a).
    { unfold node_new in ENN. apply rbind_ok in ENN. destruct ENN as [[fs g] [_ H]]. apply rbind_ok in H. destruct H as [_ [_ H]]. apply rbind_ok in H. destruct H as [dd [_ H]].
      apply rbind_ok in H. destruct H as [ll [_ H]]. apply rbind_ok in H. destruct H as [mm [_ H]]. apply rbind_ok in H. destruct H as [cs [_ H]]. apply ok_pair_inv in H. destruct H as [<- _]. reflexivity. }
    match goal with |- rbind ?m _ <> _ -> _ => assert (EM : exists d, dd_fine d /\ m = Ok {| t_data := t_data t0; t_labels := t_labels t0; t_n := t_n t0; t_dd := d; t_feats := t_feats t0; t_nodes := t_nodes t0; t_leaves := t_leaves t0;
                   t_budget := t_budget t0; t_queries := t_queries t0; t_splits := t_splits t0; t_depth := t_depth t0 |}) end.
    { assert (TD : t_data t0 = D) by (rewrite ET; reflexivity).
      match goal with |- exists d, _ /\ (if ?b then _ else _) = _ => destruct b end.
      - destruct discrete_total as [d [E1 E2]]. exists (Some d). split; [exact E2|]. rewrite TD, E1. reflexivity.
      - exists (t_dd t0). split; [rewrite ET; apply (tr_dd _ _ _ TR)|]. destruct t0; reflexivity. }
    destruct EM as [d [DF ->]]. cbn [rbind]. intros NT.
    destruct (start_inv M P c a e t0 e0 d EN (tr_rows _ _ _ TR)) as [T S0].
    destruct (loop_total M c D L (train_feats a) (train_rows a) (ta_budget a) (tr_depth _ _ _ TR) HS HF) with (fuel := S (leaf_rows (start_tree t0 d))) (t := start_tree t0 d) (e := e0) as [X|X]; auto.
    - intros. apply new_total; auto.
    - split; [exact DF|]. rewrite ET. cbn. constructor; auto. rewrite RD. apply (tr_dd _ _ _ TR).
    - apply (tr_leaves _ _ _ TR).
    - intros m Em. destruct (ti_splits _ _ _ _ _ _ _ _ T) as [LL _]. rewrite LL, S0. pose proof (tr_leaves _ _ _ TR). destruct m; [contradiction|lia].
    - contradiction. }
  destruct G as [[t e1] G]. exists t, t0, e0, e1. auto.
Qed.
End Problem.

(** The three cases. *)
Lemma bins_from_enough c a k nd : 2 <= k -> enough_bins c a k -> eligible c (ta_labels a) nd ->
  match tc_bin c with LINEAR => 2 <= node_bins c nd | IDENTITY => True | RANDOM => 1 <= node_bins c nd | _ => False end.
Proof.
  intros K2 [E1 E2] [_ [_ VAR]].
  assert (NI : 2 <= length (nd_idcs nd)).
  { destruct VAR as [x [y [I1 [I2 NE]]]]. unfold labels_at in *. destruct (nd_idcs nd) as [|i [|j l]]; cbn in *; try tauto; try lia.
    destruct I1 as [<-|[]], I2 as [<-|[]]. contradiction. }
  assert (G : tc_bin c = LINEAR \/ tc_bin c = RANDOM -> 2 <= node_bins c nd).
  { intros Z. specialize (E1 Z). unfold node_bins. destruct (tc_log_split c); [|lia].
    assert (1 <= Nat.log2 (length (nd_idcs nd))). { change 1 with (Nat.log2 2). now apply Nat.log2_le_mono. } lia. }
  destruct (tc_bin c); auto; try contradiction. assert (2 <= node_bins c nd) by auto. lia.
Qed.
Lemma exact_fits P M c a W e : trainable c a W -> tc_solver c = EXACT -> enough_bins c a 2 -> exists t, built P M c a e t.
Proof.
  intros TR SV EB. apply (fit_total M c a W TR); [congruence| |].
  - intros. eapply exact_solves; eauto.
  - intros. eapply exact_found; eauto. eapply bins_from_enough; [|eauto..]; auto.
Qed.
Lemma mab_fits P M c a W e : trainable c a W -> tc_solver c = MAB -> tc_class c = true -> 1 <= tc_batch c -> tc_bin c <> IDENTITY -> enough_bins c a 6 ->
  exists t, built P M c a e t.
Proof.
  intros TR SV IC HB BT EB. apply (fit_total M c a W TR); auto.
  - intros. eapply mab_solves; eauto.
  - intros. eapply mab_found; eauto.
Qed.

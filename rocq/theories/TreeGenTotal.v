(** Fitting succeeds for any split search that answers and separates (TreeTotal.v). *)
From Coq Require Import List Arith Bool ZArith QArith Qcanon Lia Permutation Qround.
From Verif Require Import Base Num Rng Histogram Utils Criteria Solvers Tree TreeGen Spec SolverSpec TreeSpec TreeGenSpec NumFacts ListFacts HistFacts DrawFacts CountFacts TreeFacts TreeThms Terminate TreeTotal.
From Verif Require Import TreeGenFacts TreeGenThms.
Import ListNotations.
Local Open Scope nat_scope.

Section Nodes.
Context (O : ops) (c : tcfg) (Q : node -> Prop) (dd : option ddict).
Hypothesis Qsol : forall nd bins sf psf sv r q, Q nd -> Q (with_solution nd bins sf psf sv r q).
Hypothesis Qspl : forall nd b, Q nd -> Q (with_splittable nd b).
Hypothesis Qchi : forall nd l r, Q nd -> Q (with_children nd l r).
Hypothesis Qpre : forall nd p l v, Q nd -> Q (with_preds nd p l v).
Hypothesis Qnew : forall t p I d pr bins e nd e', t_dd t = dd -> node_new c t p I d pr bins e = Ok (nd, e') -> Q nd.

Definition all_q (t : tree) : Prop := t_dd t = dd /\ Forall Q (t_nodes t).

Lemma put_q t id nd : all_q t -> Q nd -> all_q (put_node t id nd).
Proof. intros [H1 H2] HQ. split; auto. cbn. now apply Forall_set. Qed.
Lemma pay_q t q : all_q t -> all_q (pay t q). Proof. auto. Qed.
Lemma q_nth t id nd : all_q t -> nth_res (t_nodes t) id = Ok nd -> Q nd.
Proof. intros [_ H] E. apply nth_res_ok, nth_error_In in E. rewrite Forall_forall in H. auto. Qed.
Lemma best_q nd b e nd' o e' : Q nd -> gen_calculate_best_split O c nd b e = Ok (nd', o, e') -> Q nd'.
Proof.
  intros HQ H. unfold gen_calculate_best_split in H. destruct (nd_computed nd); [injection H as <- _ _; auto|].
  apply rbind_ok in H. destruct H as [[[s bins] e1] [_ H]]. destruct s.
  - apply rbind_ok in H. destruct H as [sf [_ H]]. injection H as <- _ _. auto.
  - injection H as <- _ _. auto.
Qed.
Lemma scan_q s pl s' : all_q (sc_tree s) -> gen_scan_leaf O c s pl = Ok s' -> all_q (sc_tree s').
Proof.
  intros HQ H. unfold gen_scan_leaf in H. destruct (sc_stop s); [injection H as <-; auto|]. destruct pl as [pos id].
  apply rbind_ok in H. destruct H as [nd [A H]]. pose proof (q_nth _ _ _ HQ A) as QN.
  apply rbind_ok in H. destruct H as [ok [_ H]]. destruct ok; cbn [negb] in H; [|injection H as <-; cbn; apply put_q; auto].
  match type of H with (if ?b then _ else _) = _ => destruct b end; [injection H as <-; auto|].
  apply rbind_ok in H. destruct H as [[[n1 o1] e1] [E1 H]]. pose proof (best_q _ _ _ _ _ _ QN E1) as Q1.
  set (t2 := if nd_computed nd then _ else _) in H.
  assert (QT : all_q t2) by (unfold t2; destruct (nd_computed nd); repeat apply pay_q; apply put_q; auto).
  apply rbind_ok in H. destruct H as [[[spl n3] e3] [E3 H]]. injection H as <-. cbn [sc_tree]. apply put_q; auto.
  destruct (nd_splittable n1); [injection E3 as _ <- _; auto|]. apply rbind_ok in E3. destruct E3 as [[[b n2] e2] [E2 E3]]. injection E3 as _ <- _.
  apply Qspl. unfold gen_check_splittable in E2. apply rbind_ok in E2. destruct E2 as [ok [_ E2]]. destruct ok; cbn [negb] in E2; [|injection E2 as _ <- _; auto].
  apply rbind_ok in E2. destruct E2 as [[[n4 o4] e4] [E4 E2]]. pose proof (best_q _ _ _ _ _ _ Q1 E4) as Q4. destruct o4; [|injection E2 as _ <- _; auto].
  apply rbind_ok in E2. destruct E2 as [[[n5 o5] e5] [E5 E2]]. pose proof (best_q _ _ _ _ _ _ Q4 E5) as Q5.
  apply rbind_ok in E2. destruct E2 as [red [_ E2]]. injection E2 as _ <- _. auto.
Qed.
Lemma split_q t id e t' e' : all_q t -> gen_node_split O c t id e = Ok (t', e') -> all_q t'.
Proof.
  intros HQ H. unfold gen_node_split in H. apply rbind_ok in H. destruct H as [nd0 [A H]]. pose proof (q_nth _ _ _ HQ A) as QN.
  apply rbind_ok in H. destruct H as [[] [_ H]]. apply rbind_ok in H. destruct H as [[nd e1] [E1 H]].
  assert (Q1 : Q nd).
  { destruct (nd_sf nd0); [injection E1 as <- _; auto|]. apply rbind_ok in E1. destruct E1 as [[[n1 o1] e2] [E2 E1]]. injection E1 as <- _. eapply best_q; eauto. }
  destruct (nd_red nd); [|injection H as <- _; apply put_q; auto].
  apply rbind_ok in H. destruct H as [[] [_ H]]. apply rbind_ok in H. destruct H as [D [_ H]]. apply rbind_ok in H. destruct H as [L [_ H]].
  apply rbind_ok in H. destruct H as [f [_ H]]. apply rbind_ok in H. destruct H as [v [_ H]]. apply rbind_ok in H. destruct H as [cl [_ H]]. cbv zeta in H.
  match type of H with (if ?b then _ else _) = _ => destruct b end; [discriminate|].
  apply rbind_ok in H. destruct H as [[nl e2] [C1 H]]. apply rbind_ok in H. destruct H as [[nr e3] [C2 H]]. apply ok_pair_inv in H. destruct H as [<- _].
  unfold gen_create_child in C1, C2. destruct HQ as [HD HF]. split; [exact HD|]. cbn. apply Forall_app. split; [apply Forall_set; auto|].
  constructor; [|constructor; [|constructor]]; eapply Qnew; eauto.
Qed.
Lemma step_q t e t' e' b : all_q t -> gen_fit_step O c t e = Ok (t', e', b) -> all_q t'.
Proof.
  intros HQ H. unfold gen_fit_step in H. apply rbind_ok in H. destruct H as [s [ES H]].
  assert (QS : all_q (sc_tree s)).
  { apply (foldM_inv (gen_scan_leaf O c) (fun s => all_q (sc_tree s)) _ _ _) in ES; auto. intros a s1 s2 _ X Y. eapply scan_q; eauto. }
  apply rbind_ok in H. destruct H as [[[t3 e3] cont] [EC H]]. apply rbind_ok in H. destruct H as [d [_ H]]. injection H as <- _ _.
  cut (all_q t3); [auto|]. destruct (sc_best s) as [[[pos id] x]|]; [|injection EC as <- _ _; auto].
  destruct (o_lt O x _); [|injection EC as <- _ _; auto]. apply rbind_ok in EC. destruct EC as [[t2 e2] [E2 EC]]. pose proof (split_q _ _ _ _ _ QS E2) as Q2.
  apply rbind_ok in EC. destruct EC as [nd [A EC]]. injection EC as <- _ _. cbn [fst] in *.
  assert (QN : Q nd) by (eapply (q_nth t2); eauto).
  destruct Q2 as [Q2 Q3]. split; [exact Q2|]. cbn. apply Forall_set; auto.
Qed.
End Nodes.

(** ** Totality of one step *)
Section Step.
Context (O : ops) (c : tcfg) (D : list (list Qc)) (L : list Qc) (FS I0 : list nat) (b0 : option Z).
Notation inv := (tinv O c D L FS I0 b0).
Notation nok := (node_ok O c D L FS I0).

Hypothesis Hdepth : tc_max_depth c <> DNone.
Hypothesis Hsolve : forall nd b e, nok nd -> dd_fine (nd_dd nd) -> eligible c L nd -> nd_left nd = None ->
  exists r, o_solve O nd b e = Ok r.
Hypothesis Hfound : forall nd nd0 b e f v r q bins e', nok nd -> dd_fine (nd_dd nd) -> eligible c L nd ->
  nd_data nd0 = Some (map (fun i => map (cell D i) (nd_feats nd)) (nd_idcs nd)) -> nd_labels nd0 = Some (labels_at L (nd_idcs nd)) -> same_frame nd nd0 ->
  o_solve O nd0 b e = Ok (Found f v r q, bins, e') ->
  exists s, nth_error (nd_feats nd) f = Some s /\
    (exists i, In i (nd_idcs nd) /\ (cell D i s <= v)%Qc) /\ (exists i, In i (nd_idcs nd) /\ (v < cell D i s)%Qc).
Hypothesis Hneg : decrease_negative O c.
Hypothesis Hnew : forall t p I d pr bins e, t_data t = D -> t_labels t = L -> t_feats t = FS -> dd_fine (t_dd t) ->
  I <> [] -> incl I I0 -> exists r, node_new c t p I d pr bins e = Ok r.

Definition fine (t : tree) : Prop := dd_fine (t_dd t) /\ Forall (fun nd => dd_fine (nd_dd nd)) (t_nodes t).

Lemma fine_step t e t' e' b : fine t -> gen_fit_step O c t e = Ok (t', e', b) -> fine t'.
Proof.
  intros [F1 F2] H. assert (G : all_q (fun nd => dd_fine (nd_dd nd)) (t_dd t) t'); [eapply step_q; [..|exact H]; auto; [|split; auto]|destruct G as [E1 E2]; split; auto; now rewrite E1].
  intros t0 p I d pr bins e0 nd e1 ED HN. unfold node_new in HN.
    apply rbind_ok in HN. destruct HN as [[fs g] [_ HN]]. apply rbind_ok in HN. destruct HN as [_ [_ HN]]. apply rbind_ok in HN. destruct HN as [dd [_ HN]].
    apply rbind_ok in HN. destruct HN as [ll [EL HN]]. apply rbind_ok in HN. destruct HN as [mm [_ HN]]. apply rbind_ok in HN. destruct HN as [cs [_ HN]].
    apply ok_pair_inv in HN. destruct HN as [<- _]. cbn. now rewrite ED.
Qed.

Lemma constraints_total nd : nok nd -> nd_left nd = None -> exists b, check_constraints c nd = Ok b.
Proof.
  intros N LF. unfold check_constraints. destruct (no_data _ _ _ _ _ _ _ N LF) as [_ EL]. rewrite EL.
  destruct (tc_max_depth c); [contradiction| |]; cbn [rbind negb opt_res].
  - destruct (tc_min_split c <? nd_n nd); cbn; eauto.
  - destruct (_ <? _)%Z; cbn; eauto. destruct (tc_min_split c <? nd_n nd); cbn; eauto.
Qed.

Lemma best_total nd b e : nok nd -> dd_fine (nd_dd nd) -> nd_left nd = None -> eligible c L nd -> exists r, gen_calculate_best_split O c nd b e = Ok r.
Proof.
  intros N F LF EG. unfold gen_calculate_best_split. destruct (nd_computed nd); [eauto|].
  destruct (Hsolve nd b e N F EG LF) as [[[s bins] e'] ES]. rewrite ES. cbn [rbind]. destruct s as [f v r q|q]; [|eauto].
  destruct (no_data _ _ _ _ _ _ _ N LF) as [E1 E2].
  destruct (Hfound nd nd b e f v r q bins e') as [s [E _]]; auto using same_frame_refl.
  - unfold nth_res. rewrite E. cbn. eauto.
Qed.

Lemma splittable_total t nd e : nok nd -> dd_fine (nd_dd nd) -> nd_left nd = None -> nd_computed nd = true -> exists r, gen_check_splittable O c t nd e = Ok r.
Proof.
  intros N F LF C. unfold gen_check_splittable. destruct (constraints_total nd N LF) as [ok EC]. rewrite EC. cbn [rbind].
  destruct ok; cbn [negb]; [|eauto]. unfold gen_calculate_best_split. rewrite C. cbn [rbind]. destruct (nd_red nd) eqn:R; [|eauto]. rewrite C. cbn. eauto.
Qed.

Lemma scan_total t0 s pos id : scan_ok O c D L FS I0 b0 t0 s -> fine (sc_tree s) -> nth_error (t_leaves t0) pos = Some id ->
  exists s', gen_scan_leaf O c s (pos, id) = Ok s'.
Proof.
  intros [T EL ES EN B] [F1 F2] P. unfold gen_scan_leaf. destruct (sc_stop s); [eauto|]. cbv zeta.
  assert (I : In id (t_leaves (sc_tree s))) by (rewrite EL; eapply nth_error_In; eauto).
  apply (ti_leaves _ _ _ _ _ _ _ _ T) in I. destruct I as [nd [A LF]]. unfold nth_res. unfold node_at in A. rewrite A. cbn [rbind].
  pose proof (ti_node _ _ _ _ _ _ _ _ T _ _ A) as N.
  assert (FN : dd_fine (nd_dd nd)) by (rewrite Forall_forall in F2; apply F2; eapply nth_error_In; eauto).
  destruct (constraints_total nd N LF) as [ok EC]. rewrite EC. cbn [rbind]. destruct ok; cbn [negb]; [|eauto].
  match goal with |- exists _, (if ?b then _ else _) = _ => destruct b end; [eauto|].
  pose proof (constraints_eligible _ _ _ _ _ _ _ N LF EC) as EG.
  destruct (best_total nd (t_budget (sc_tree s)) (sc_env s) N FN LF EG) as [[[nd1 o1] e1] EB]. rewrite EB. cbn [rbind].
  destruct (best_split_ok _ _ _ _ _ _ _ _ _ _ _ _ N LF (or_intror EC) EB) as [K1 [K2 [K3 [K4 [K5 K6]]]]].
  destruct (nd_splittable nd1) eqn:SP; cbn [rbind]; [eauto|].
  match goal with |- context [gen_check_splittable O c ?t nd1 e1] => destruct (splittable_total t nd1 e1 K2) as [[[b n2] e2] ECS] end; auto.
  - now rewrite (sf_dd _ _ (ss_frame _ _ K3)).
  - now rewrite (ss_left _ _ K3).
  - rewrite ECS. cbn. eauto.
Qed.

Lemma scan_q_fine s pl s' : fine (sc_tree s) -> gen_scan_leaf O c s pl = Ok s' -> fine (sc_tree s').
Proof.
  intros [F1 F2] H. assert (G : all_q (fun nd => dd_fine (nd_dd nd)) (t_dd (sc_tree s)) (sc_tree s')); [eapply scan_q; [..|exact H]; auto; split; auto|].
  destruct G as [E1 E2]. split; auto. now rewrite E1.
Qed.

Lemma scan_all_total t e : inv t -> fine t -> exists s,
  foldM (gen_scan_leaf O c) {| sc_tree := t; sc_env := e; sc_best := None; sc_stop := false |} (combine (seq 0 (length (t_leaves t))) (t_leaves t)) = Ok s /\ fine (sc_tree s).
Proof.
  intros T F. set (s0 := {| sc_tree := t; sc_env := e; sc_best := None; sc_stop := false |}).
  assert (S0 : scan_ok O c D L FS I0 b0 t s0) by (constructor; cbn; auto).
  assert (F0 : fine (sc_tree s0)) by auto. revert S0 F0. generalize s0. clear s0.
  assert (G : forall l k, (forall j id, nth_error l j = Some id -> nth_error (t_leaves t) (k + j) = Some id) ->
     forall s, scan_ok O c D L FS I0 b0 t s -> fine (sc_tree s) -> exists s', foldM (gen_scan_leaf O c) s (combine (seq k (length l)) l) = Ok s' /\ fine (sc_tree s')).
  { induction l as [|id l IH]; intros k HL s SO FO; cbn [length seq combine foldM]; [eauto|].
    assert (P : nth_error (t_leaves t) k = Some id) by (rewrite <- (Nat.add_0_r k); apply HL; reflexivity).
    destruct (scan_total t s k id SO FO P) as [s1 E1]. rewrite E1. cbn [rbind].
    apply IH; [|eapply scan_leaf_ok; eauto|eapply scan_q_fine; eauto].
    intros j i E. replace (S k + j) with (k + S j) by lia. now apply HL. }
  intros s SO FO. apply (G (t_leaves t) 0); auto.
Qed.

Lemma depth_total t : inv t -> exists d, get_depth t = Ok d.
Proof.
  intros T. unfold get_depth. assert (G : forall l, (forall id, In id l -> exists nd, node_at t id nd) ->
    exists ds, mapM (fun id => do nd <- nth_res (t_nodes t) id; Ok (nd_depth nd)) l = Ok ds /\ length ds = length l).
  { induction l as [|id l IH]; intros H; cbn [mapM]; [eexists; split; reflexivity|]. destruct (H id (or_introl eq_refl)) as [nd A]. unfold node_at in A. assert (X : nth_res (t_nodes t) id = Ok nd) by (unfold nth_res; now rewrite A). rewrite X. cbn [rbind].
    destruct IH as [ds [E1 E2]]; [intros; apply H; now right|]. rewrite E1. cbn. eexists; split; [reflexivity|cbn; congruence]. }
  destruct (G (t_leaves t)) as [ds [E1 E2]].
  { intros id I. apply (ti_leaves _ _ _ _ _ _ _ _ T) in I. destruct I as [nd [A _]]. eauto. }
  rewrite E1. cbn [rbind]. destruct ds; [|eauto]. destruct (ti_splits _ _ _ _ _ _ _ _ T). cbn in E2. lia.
Qed.

Lemma set_depth_inv t d : get_depth (set_depth t d) = get_depth t. Proof. reflexivity. Qed.

Lemma split_total t id nd x e : inv t -> fine t -> node_at t id nd -> nd_left nd = None -> eligible c L nd -> nd_red nd = Some x -> o_lt O x (Fin (tc_min_imp c)) = true ->
  exists r, gen_node_split O c t id e = Ok r.
Proof.
  intros T [F1 F2] A LF EG RX XM. pose proof (ti_node _ _ _ _ _ _ _ _ T _ _ A) as N.
  assert (FN : dd_fine (nd_dd nd)) by (rewrite Forall_forall in F2; apply F2; eapply nth_error_In; eauto).
  unfold gen_node_split. unfold nth_res. unfold node_at in A. rewrite A. cbn [rbind]. change (node_at t id nd) in A.
  destruct (ti_leaf _ _ _ _ _ _ _ _ T _ _ A LF) as [RN SD]. rewrite SD. cbn [negb guard rbind].
  destruct (nd_sf nd) as [s|] eqn:SF; [|rewrite (no_nosplit _ _ _ _ _ _ _ N SF) in RX; discriminate]. cbn [rbind].
  destruct (no_solved _ _ _ _ _ _ _ N s SF) as [f [v [x' [PF [SV [RX' SS]]]]]]. rewrite RX in RX'. injection RX' as <-. rewrite RX.
  destruct SS as (nd0 & b & e0 & r & q & bins & e' & H1 & H2 & H3 & H4 & H5 & H6 & H7).
  destruct (Hfound nd nd0 b e0 f v r q bins e' N FN EG H2 H3 H4 H1) as (s' & G1 & [i1 [G4 G5]] & [i2 [G6 G7]]).
  rewrite H5 in G1. injection G1 as <-.
  pose proof (Hneg x XM) as XN.
  rewrite XN. cbn [guard rbind]. destruct (no_data _ _ _ _ _ _ _ N LF) as [ND NL]. rewrite ND, NL, PF, SV. cbn [opt_res rbind].
  assert (EC : col (map (fun i => map (cell D i) (nd_feats nd)) (nd_idcs nd)) f = Ok (map (fun i => cell D i s) (nd_idcs nd))).
  { unfold col. rewrite mapM_map. generalize (nd_idcs nd). induction l as [|i l IH]; auto. cbn [mapM]. unfold nth_res at 1. rewrite nth_error_map, H5. cbn [option_map rbind].
    rewrite IH. reflexivity. }
  rewrite EC. cbn [rbind]. destruct (split_filter v (fun i => cell D i s) (nd_idcs nd)) as [S1 S2]. rewrite S1, S2.
  set (LI := filter (fun i => qle (cell D i s) v) (nd_idcs nd)) in *. set (RI := filter (fun i => qlt v (cell D i s)) (nd_idcs nd)) in *.
  assert (I1 : In i1 LI) by (apply filter_In; split; auto; now apply qle_spec).
  assert (I2 : In i2 RI) by (apply filter_In; split; auto; now apply qlt_spec).
  assert (L1 : LI <> []) by (intros Z; rewrite Z in I1; destruct I1). assert (L2 : RI <> []) by (intros Z; rewrite Z in I2; destruct I2).
  replace ((length LI =? 0) || (length RI =? 0)) with false by (destruct LI, RI; try contradiction; reflexivity).
  unfold gen_create_child.
  destruct (Hnew t (Some id) LI (S (nd_depth nd)) (o_share O (nd_prop nd) (length LI) (length (labels_at L (nd_idcs nd)))) (nd_bins nd) e) as [[nl el] E1]; auto; try apply T.
  { intros i I. apply (no_rows _ _ _ _ _ _ _ N). unfold LI in I. now apply filter_In in I. }
  rewrite E1. cbn [rbind fst snd].
  destruct (Hnew t (Some id) RI (S (nd_depth nd)) (o_share O (nd_prop nd) (length RI) (length (labels_at L (nd_idcs nd)))) (nd_bins nd) el) as [[nr er] E2]; auto; try apply T.
  { intros i I. apply (no_rows _ _ _ _ _ _ _ N). unfold RI in I. now apply filter_In in I. }
  rewrite E2. cbn. eauto.
Qed.

Lemma step_total t e : inv t -> fine t -> exists r, gen_fit_step O c t e = Ok r.
Proof.
  intros T F. unfold gen_fit_step. destruct (scan_all_total t e T F) as [s [ES FS']]. rewrite ES. cbn [rbind]. cbv zeta.
  destruct (scan_ok_all _ _ _ _ _ _ _ _ _ _ T ES) as [T1 L1 S1 NN1 B1].
  assert (NS : forall x : xn, exists d, get_depth (sc_tree s) = Ok d) by (intros; eapply depth_total; eauto).
  destruct (sc_best s) as [[[pos id] x]|]; cbn [rbind].
  2:{ destruct (NS PInf) as [d Ed]. rewrite Ed. cbn. eauto. }
  destruct (o_lt O x (Fin (tc_min_imp c))) eqn:X; cbn [rbind].
  2:{ destruct (NS PInf) as [d Ed]. rewrite Ed. cbn. eauto. }
  destruct B1 as [P [nd [A [LF [CC [RX SP]]]]]].
  pose proof (constraints_eligible _ _ _ _ _ _ _ (ti_node _ _ _ _ _ _ _ _ T1 _ _ A) LF CC) as EG.
  destruct (split_total (sc_tree s) id nd x (sc_env s) T1 FS' A LF EG RX X) as [[t2 e2] E2]. rewrite E2. cbn [rbind fst snd].
  destruct (fit_step_split _ _ _ _ _ _ _ _ _ _ _ _ _ _ _ T1 P A LF CC RX X E2) as [nl [nr [nd' [TE [A' [EN' [TI NW]]]]]]].
  unfold nth_res. cbn [inc_splits t_nodes]. unfold node_at in A'. rewrite A'. cbn [rbind].
  match goal with |- exists _, (do d <- get_depth ?t; _) = _ => assert (TT : inv t) end.
  { rewrite EN' in *. cbn [with_children nd_left nd_right nd_pval].
    assert (W : put_node (inc_splits t2) id (with_preds (with_children nd (length (t_nodes (sc_tree s))) (S (length (t_nodes (sc_tree s))))) None None None) = inc_splits t2).
    { unfold put_node. cbn [inc_splits t_nodes]. rewrite set_nth_same by exact A'. reflexivity. }
    rewrite W. assert (LE : t_leaves t2 = t_leaves (sc_tree s)) by (rewrite TE; reflexivity). cbn [inc_splits t_leaves]. rewrite !LE. exact TI. }
  destruct (depth_total _ TT) as [d Ed]. rewrite Ed. cbn. eauto.
Qed.

Lemma loop_total fuel : forall t e, inv t -> fine t -> tc_max_leaves c <> Some 0 ->
  (forall m, tc_max_leaves c = Some m -> length (t_leaves t) <= m) ->
  gen_fit_loop O c fuel t e = Err OutOfFuel \/ exists r, gen_fit_loop O c fuel t e = Ok r.
Proof.
  induction fuel as [|fuel IH]; intros t e T F M0 LM; cbn [gen_fit_loop].
  - assert (G : exists b, match tc_max_leaves c with None => Ok false | Some m => if length (t_leaves t) =? m then Ok true else if m <? length (t_leaves t) then Err GenericException else Ok false end = Ok b).
    { destruct (tc_max_leaves c) as [m|]; [|eauto]. specialize (LM m eq_refl). destruct (_ =? _); [eauto|]. destruct (Nat.ltb_spec m (length (t_leaves t))); [lia|eauto]. }
    destruct G as [b ->]. cbn [rbind]. destruct b; eauto.
  - assert (G : exists b, match tc_max_leaves c with None => Ok false | Some m => if length (t_leaves t) =? m then Ok true else if m <? length (t_leaves t) then Err GenericException else Ok false end = Ok b /\
       (b = false -> forall m, tc_max_leaves c = Some m -> length (t_leaves t) < m)).
    { destruct (tc_max_leaves c) as [m|]; [|exists false; split; auto; discriminate]. specialize (LM m eq_refl). destruct (Nat.eqb_spec (length (t_leaves t)) m); [exists true; split; auto; discriminate|].
      destruct (Nat.ltb_spec m (length (t_leaves t))); [lia|]. exists false. split; auto. intros _ m' E. injection E as <-. lia. }
    destruct G as [b [-> LT]]. cbn [rbind]. destruct b; [eauto|].
    destruct (step_total t e T F) as [[[t1 e1] cont] ES]. rewrite ES. cbn [rbind]. destruct cont; [|eauto].
    destruct (fit_step_tinv _ _ _ _ _ _ _ _ _ _ _ _ T ES) as [T' [_ [C1 _]]]. apply IH; auto.
    + eapply fine_step; eauto.
    + intros m Em. specialize (LT eq_refl m Em). destruct (ti_splits _ _ _ _ _ _ _ _ T), (ti_splits _ _ _ _ _ _ _ _ T'). rewrite C1 in * by auto. lia.
Qed.
End Step.

Lemma fit_total O P c a W e : trainable c a W -> search_ends O -> search_answers O a -> search_separates O a -> decrease_negative O c ->
  exists t, gen_built P O c a e t.
Proof.
  intros TR HB HA HSP HN.
  assert (HS : forall nd b e, node_ok O c (ta_data a) (ta_labels a) (train_feats a) (train_rows a) nd -> dd_fine (nd_dd nd) -> eligible c (ta_labels a) nd -> nd_left nd = None -> exists r, o_solve O nd b e = Ok r).
  { intros nd b e0 N F EG LF. destruct (no_data _ _ _ _ _ _ _ N LF) as [E1 E2]. apply HA; auto. split; [exact E1|]. split; [exact E2|]. split; [apply N|]. split; [apply N|]. apply EG. }
  assert (HF : forall nd nd0 b e f v r q bins e', node_ok O c (ta_data a) (ta_labels a) (train_feats a) (train_rows a) nd -> dd_fine (nd_dd nd) -> eligible c (ta_labels a) nd ->
    nd_data nd0 = Some (map (fun i => map (cell (ta_data a) i) (nd_feats nd)) (nd_idcs nd)) -> nd_labels nd0 = Some (labels_at (ta_labels a) (nd_idcs nd)) -> same_frame nd nd0 ->
    o_solve O nd0 b e = Ok (Found f v r q, bins, e') ->
    exists s, nth_error (nd_feats nd) f = Some s /\
    (exists i, In i (nd_idcs nd) /\ (cell (ta_data a) i s <= v)%Qc) /\ (exists i, In i (nd_idcs nd) /\ (v < cell (ta_data a) i s)%Qc)).
  { intros nd nd0 b e0 f v r q bins e' N F EG E1 E2 FR H. pose proof (sf_feats _ _ FR) as X1. pose proof (sf_idcs _ _ FR) as X2. rewrite <- X1, <- X2.
    apply (HSP nd0 b e0 f v r q bins e'); [|now rewrite (sf_dd _ _ FR)|exact H].
    unfold posed_at. rewrite X1, X2. split; [exact E1|]. split; [exact E2|]. split; [apply N|]. split; [apply N|]. apply EG. }
  destruct (tree_new_total c a W TR P e) as [t0 [e0 EN]].
  assert (G : exists r, gen_tree_fit O c t0 (None, None) e0 = Ok r).
  { pose proof (built_terminates O c HB P a e t0 e0 EN) as NT. revert NT. unfold gen_tree_fit. cbn [rbind]. rewrite (tr_splitter _ _ _ TR).
    destruct (new_spec _ _ _ _ _ _ EN) as (nd & e1 & ENN & ET & EE).
    assert (RD : nd_dd nd = ta_dd a).
    { unfold node_new in ENN. apply rbind_ok in ENN. destruct ENN as [[fs g] [_ H]]. apply rbind_ok in H. destruct H as [_ [_ H]]. apply rbind_ok in H. destruct H as [dd [_ H]].
      apply rbind_ok in H. destruct H as [ll [_ H]]. apply rbind_ok in H. destruct H as [mm [_ H]]. apply rbind_ok in H. destruct H as [cs [_ H]]. apply ok_pair_inv in H. destruct H as [<- _]. reflexivity. }
    match goal with |- rbind ?m _ <> _ -> _ => assert (EM : exists d, dd_fine d /\ m = Ok {| t_data := t_data t0; t_labels := t_labels t0; t_n := t_n t0; t_dd := d; t_feats := t_feats t0; t_nodes := t_nodes t0; t_leaves := t_leaves t0;
                   t_budget := t_budget t0; t_queries := t_queries t0; t_splits := t_splits t0; t_depth := t_depth t0 |}) end.
    { assert (TD : t_data t0 = ta_data a) by (rewrite ET; reflexivity).
      match goal with |- exists d, _ /\ (if ?b then _ else _) = _ => destruct b end.
      - destruct (TreeTotal.discrete_total c a W TR) as [d [E1 E2]]. exists (Some d). split; [exact E2|]. rewrite TD, E1. reflexivity.
      - exists (t_dd t0). split; [rewrite ET; apply (tr_dd _ _ _ TR)|]. destruct t0; reflexivity. }
    destruct EM as [d [DF ->]]. cbn [rbind]. intros NT.
    destruct (start_inv O P c a e t0 e0 d EN (tr_rows _ _ _ TR)) as [T S0].
    destruct (loop_total O c (ta_data a) (ta_labels a) (train_feats a) (train_rows a) (ta_budget a) (tr_depth _ _ _ TR) HS HF HN) with (fuel := S (leaf_rows (start_tree t0 d))) (t := start_tree t0 d) (e := e0) as [X|X]; auto.
    - intros. apply (TreeTotal.new_total c a W TR); auto.
    - split; [exact DF|]. rewrite ET. cbn. constructor; auto. rewrite RD. apply (tr_dd _ _ _ TR).
    - apply (tr_leaves _ _ _ TR).
    - intros m Em. destruct (ti_splits _ _ _ _ _ _ _ _ T) as [LL _]. rewrite LL, S0. pose proof (tr_leaves _ _ _ TR). destruct m; [contradiction|lia].
    - contradiction. }
  destruct G as [[t e1] G]. exists t, t0, e0, e1. auto.
Qed.

(** Growing a tree on a table with more or fewer columns. *)
From Coq Require Import List Arith Bool ZArith QArith Qcanon Lia Permutation.
From Verif Require Import Base Num Rng Histogram Utils Criteria Solvers Tree Spec SolverSpec TreeSpec InvarSpec ColSpec NumFacts ListFacts HistFacts HistAdd CritFacts ReductionFacts MakeHist SampleFacts ExactProps DrawFacts CountFacts TreeFacts TreeThms MoveFacts TreeSim.
Import ListNotations.
Local Open Scope nat_scope.

(** ** Chosen columns are not forgotten *)
Definition fresh (t : tree) : Prop := forall i nd, nth_error (t_nodes t) i = Some nd -> nd_computed nd = false -> nd_sf nd = None.
Definition keeps (t t1 : tree) : Prop := forall i nd, nth_error (t_nodes t) i = Some nd -> nd_sf nd = None \/ exists nd1, nth_error (t_nodes t1) i = Some nd1 /\ nd_sf nd1 = nd_sf nd.
Definition steady (t t1 : tree) : Prop := fresh t1 /\ keeps t t1.
Lemma keeps_refl t : keeps t t.
Proof. intros i nd H. eauto. Qed.
Lemma keeps_trans t t1 t2 : keeps t t1 -> keeps t1 t2 -> keeps t t2.
Proof. intros A B i nd H. destruct (A i nd H) as [|[nd1 [H1 E1]]]; auto. destruct (B i nd1 H1) as [Z|[nd2 [H2 E2]]]; [left; congruence|right; exists nd2; split; congruence]. Qed.
Lemma put_steady t id nd nd1 : fresh t -> nth_error (t_nodes t) id = Some nd -> (nd_sf nd = None \/ nd_sf nd1 = nd_sf nd) -> (nd_computed nd1 = false -> nd_sf nd1 = None) -> steady t (put_node t id nd1).
Proof.
  intros F E H N. split.
  - intros i x. cbn [put_node set_nodes t_nodes]. rewrite set_nth_nth, E. destruct (i =? id); [intros Q; injection Q as <-; auto|apply F].
  - intros i x X. cbn [put_node set_nodes t_nodes]. rewrite set_nth_nth, E. destruct (Nat.eqb_spec i id) as [->|]; [|eauto]. assert (x = nd) by congruence. subst x. destruct H; eauto.
Qed.
Lemma steady_trans t t1 t2 : steady t t1 -> steady t1 t2 -> steady t t2.
Proof. intros [_ A] [F B]. split; auto. eapply keeps_trans; eauto. Qed.
Lemma best_computed M c nd b e x o e1 : calculate_best_split M c nd b e = Ok (x, o, e1) -> nd_computed x = true /\ (nd_computed nd = true -> x = nd).
Proof.
  unfold calculate_best_split. intros H. destruct (nd_computed nd) eqn:C.
  - apply ok_pair_inv in H. destruct H as [H _]. apply pair_equal_spec in H. destruct H as [<- _]. auto.
  - apply rbind_ok in H. destruct H as [[[s bins] e2] [_ H]]. destruct s as [f v r q|q].
    + apply rbind_ok in H. destruct H as [sf [_ H]]. apply ok_pair_inv in H. destruct H as [H _]. apply pair_equal_spec in H. destruct H as [<- _]. split; auto. discriminate.
    + apply ok_pair_inv in H. destruct H as [H _]. apply pair_equal_spec in H. destruct H as [<- _]. split; auto. discriminate.
Qed.
Lemma splittable_same M c t nd e b x e1 : nd_computed nd = true -> check_splittable M c t nd e = Ok (b, x, e1) -> x = nd.
Proof.
  intros C H. unfold check_splittable in H. apply rbind_ok in H. destruct H as [ok [_ H]]. destruct ok; cbn [negb] in H; [|congruence].
  unfold calculate_best_split in H. rewrite C in H. cbn [rbind] in H. destruct (nd_red nd); [|congruence]. rewrite ?C in H. cbn [rbind] in H. apply rbind_ok in H. destruct H as [r [_ H]]. congruence.
Qed.
Lemma scan_steady M c z pos id z1 : fresh (sc_tree z) -> scan_leaf M c z (pos, id) = Ok z1 -> steady (sc_tree z) (sc_tree z1).
Proof.
  intros F H. unfold scan_leaf in H. destruct (sc_stop z); [assert (z = z1) by congruence; subst; split; auto; apply keeps_refl|].
  apply rbind_ok in H. destruct H as [nd [E1 H]]. apply nth_res_ok in E1. apply rbind_ok in H. destruct H as [ok [E2 H]]. destruct ok; cbn [negb] in H.
  2:{ match type of H with Ok ?z0 = _ => assert (X : z0 = z1) by congruence end. rewrite <- X. cbn [sc_tree]. apply put_steady with (nd := nd); [auto|auto|right; reflexivity|]. intros Z. exact (F _ _ E1 Z). }
  match type of H with (if ?b then _ else _) = _ => destruct b end.
  { match type of H with Ok ?z0 = _ => assert (X : z0 = z1) by congruence end. rewrite <- X. cbn [sc_tree]. split; auto. apply keeps_refl. }
  apply rbind_ok in H. destruct H as [[[nd1 red] e1] [E3 H]]. destruct (best_computed _ _ _ _ _ _ _ _ E3) as [C1 S1]. cbv zeta in H.
  set (t2 := if nd_computed nd then put_node (sc_tree z) id nd1 else pay (put_node (sc_tree z) id nd1) (nd_queries nd1)) in *.
  assert (TN : t_nodes t2 = t_nodes (put_node (sc_tree z) id nd1)) by (unfold t2; destruct (nd_computed nd); reflexivity).
  assert (ST : steady (sc_tree z) (put_node (sc_tree z) id nd1)).
  { apply put_steady with (nd := nd); auto; [|congruence]. destruct (nd_computed nd) eqn:C; [right; now rewrite S1|left; eapply F; eauto]. }
  assert (ST2 : steady (sc_tree z) t2) by (unfold steady, fresh, keeps in *; now rewrite TN).
  assert (A2 : nth_error (t_nodes t2) id = Some nd1) by (rewrite TN; cbn [put_node set_nodes t_nodes]; now rewrite set_nth_nth, E1, Nat.eqb_refl).
  apply rbind_ok in H. destruct H as [[[spl nd3] e3] [E4 H]]. match type of H with Ok ?z0 = _ => assert (X : z0 = z1) by congruence end. rewrite <- X. cbn [sc_tree].
  eapply steady_trans; [exact ST2|]. assert (Q : nd_sf nd3 = nd_sf nd1 /\ nd_computed nd3 = true).
  { destruct (nd_splittable nd1); [split; congruence|]. apply rbind_ok in E4. destruct E4 as [[[b nd2] e2] [E5 E4]]. apply (splittable_same _ _ _ _ _ _ _ _ C1) in E5. subst nd2. assert (nd3 = with_splittable nd1 b) by congruence. subst nd3. auto. }
  destruct Q as [Q1 Q2]. apply put_steady with (nd := nd1); [apply ST2|auto|right; auto|congruence].
Qed.
Lemma scans_steady M c l : forall z z1, fresh (sc_tree z) -> foldM (scan_leaf M c) z l = Ok z1 -> steady (sc_tree z) (sc_tree z1).
Proof.
  induction l as [|[pos id] l IH]; intros z z1 F H; cbn [foldM] in H; [assert (z = z1) by congruence; subst; split; auto; apply keeps_refl|].
  apply rbind_ok in H. destruct H as [z2 [E H]]. pose proof (scan_steady _ _ _ _ _ _ F E) as S1. eapply steady_trans; [exact S1|]. apply IH; auto. apply S1.
Qed.
Lemma new_fresh c t p I d pr b e nd e1 : node_new c t p I d pr b e = Ok (nd, e1) -> nd_sf nd = None /\ nd_computed nd = false.
Proof.
  unfold node_new. intros H. apply rbind_ok in H. destruct H as [[fs g1] [_ H]]. cbv zeta in H. apply rbind_ok in H. destruct H as [[] [_ H]]. apply rbind_ok in H. destruct H as [dd [_ H]]. apply rbind_ok in H. destruct H as [ll [_ H]]. apply rbind_ok in H. destruct H as [mm [_ H]]. apply rbind_ok in H. destruct H as [cs [_ H]].
  apply ok_pair_inv in H. destruct H as [<- _]. auto.
Qed.
Lemma split_steady M c t id e t1 e1 : fresh t -> node_split M c t id e = Ok (t1, e1) -> steady t t1.
Proof.
  intros F H. unfold node_split in H. apply rbind_ok in H. destruct H as [nd0 [E1 H]]. apply nth_res_ok in E1. apply rbind_ok in H. destruct H as [[] [_ H]]. apply rbind_ok in H. destruct H as [[nd e2] [E2 H]].
  assert (Q : (nd_sf nd0 = None \/ nd_sf nd = nd_sf nd0) /\ (nd_computed nd = false -> nd_sf nd = None)).
  { destruct (nd_sf nd0) eqn:SF.
    - assert (nd = nd0) by congruence. subst nd. split; [right; auto|]. intros Z. rewrite (F _ _ E1 Z) in SF. discriminate.
    - split; auto. apply rbind_ok in E2. destruct E2 as [[[x o] e3] [E2 E3]]. cbn [fst snd] in E3. apply best_computed in E2. assert (nd = x) by congruence. subst x. destruct E2. congruence. }
  destruct Q as [Q1 Q2]. destruct (nd_red nd) as [red|]; [|apply ok_pair_inv in H; destruct H as [<- _]; now apply put_steady with (nd := nd0)].
  apply rbind_ok in H. destruct H as [[] [_ H]]. apply rbind_ok in H. destruct H as [dd [_ H]]. apply rbind_ok in H. destruct H as [ll [_ H]]. apply rbind_ok in H. destruct H as [f [_ H]]. apply rbind_ok in H. destruct H as [v [_ H]]. apply rbind_ok in H. destruct H as [cl [_ H]]. cbv zeta in H.
  match type of H with (if ?b then _ else _) = _ => destruct b end; [discriminate|]. apply rbind_ok in H. destruct H as [[nl e3] [C1 H]]. apply rbind_ok in H. destruct H as [[nr e4] [C2 H]]. cbn [fst snd] in *. unfold create_child in *. apply new_fresh in C1, C2.
  apply ok_pair_inv in H. destruct H as [<- _]. set (k := length (t_nodes t)). pose proof (put_steady t id nd0 (with_children nd k (S k)) F E1 Q1 Q2) as [F1 K1]. split.
  - intros i x X Z. cbn [set_nodes t_nodes] in X. destruct (lt_dec i (length (t_nodes (put_node t id (with_children nd k (S k)))))) as [L|L].
    + rewrite nth_error_app1 in X by auto. eapply F1; eauto.
    + rewrite nth_error_app2 in X by lia. destruct (i - _) as [|[|j]]; cbn in X; try (injection X as <-); try tauto. destruct j; discriminate.
  - intros i x X. destruct (K1 i x X) as [|[y [Y E]]]; auto. right. exists y. split; auto. cbn [set_nodes t_nodes]. rewrite nth_error_app1; auto. apply nth_error_Some. congruence.
Qed.
Lemma nodes_steady t t1 t2 : t_nodes t2 = t_nodes t1 -> steady t t1 -> steady t t2.
Proof. unfold steady, fresh, keeps. now intros ->. Qed.
Lemma step_steady M c t e t1 e1 b : fresh t -> fit_step M c t e = Ok (t1, e1, b) -> steady t t1.
Proof.
  intros F H. unfold fit_step in H. apply rbind_ok in H. destruct H as [z [EZ H]]. pose proof (scans_steady M c _ {| sc_tree := t; sc_env := e; sc_best := None; sc_stop := false |} z F EZ) as S1. cbn [sc_tree] in S1. cbv zeta in H.
  apply rbind_ok in H. destruct H as [[[t3 e3] cont] [EC H]]. apply rbind_ok in H. destruct H as [d [_ H]]. apply ok_pair_inv in H. destruct H as [H _]. apply pair_equal_spec in H. destruct H as [<- _].
  apply (nodes_steady _ t3); [reflexivity|]. destruct (sc_best z) as [[[pos id] x]|]; [|assert (sc_tree z = t3) by congruence; now subst].
  destruct (xlt x _); [|assert (sc_tree z = t3) by congruence; now subst].
  apply rbind_ok in EC. destruct EC as [[t2 e2] [E2 EC]]. cbn [fst snd] in EC. apply rbind_ok in EC. destruct EC as [nd [A EC]]. apply nth_res_ok in A. cbn [inc_splits t_nodes] in A.
  apply ok_pair_inv in EC. destruct EC as [EC _]. apply pair_equal_spec in EC. destruct EC as [<- _]. pose proof (split_steady _ _ _ _ _ _ _ (proj1 S1) E2) as S2.
  eapply steady_trans; [exact S1|]. eapply steady_trans; [exact S2|]. apply (nodes_steady _ (put_node t2 id (with_preds nd None None (nd_pval nd)))); [reflexivity|].
  apply put_steady with (nd := nd); [apply S2|auto|right; reflexivity|]. intros Z. exact (proj1 S2 _ _ A Z).
Qed.
Lemma loop_steady M c fuel : forall t e t1 e1, fresh t -> fit_loop M c fuel t e = Ok (t1, e1) -> steady t t1.
Proof.
  induction fuel as [|fuel IH]; intros t e t1 e1 F H; cbn [fit_loop] in H; apply rbind_ok in H; destruct H as [stop [_ H]]; destruct stop.
  - apply ok_pair_inv in H. destruct H as [<- _]. split; auto. apply keeps_refl.
  - discriminate H.
  - apply ok_pair_inv in H. destruct H as [<- _]. split; auto. apply keeps_refl.
  - apply rbind_ok in H. destruct H as [[[t2 e2] b] [E2 H]]. pose proof (step_steady _ _ _ _ _ _ _ F E2) as S1. destruct b; [eapply steady_trans; [exact S1|]; eapply IH; eauto; apply S1|]. apply ok_pair_inv in H. destruct H as [<- _]. exact S1.
Qed.

(** ** The simulation *)
Definition scfg_of (c : tcfg) (nb : nat) : scfg := {| s_class := tc_class c; s_measure := tc_crit c; s_bin := tc_bin c; s_nb := nb; s_minmax := None; s_dd := None |}.
Definition sub (X : list (list Qc)) (fs I : list nat) : list (list Qc) := map (fun i => map (cell X i) fs) I.
Definition good_out (good : nat -> Prop) (fs : list nat) (out : sres) : Prop := match out with Found f _ _ _ => forall k, nth_error fs f = Some k -> good k | NoSplit _ => True end.
Definition out_sim (phi : nat -> nat) (fs fs' : list nat) (out out' : sres) : Prop :=
  match out, out' with
  | Found f v r q, Found f' v' r' q' => v' = v /\ r' = r /\ exists k, nth_error fs f = Some k /\ nth_error fs' f' = Some (phi k)
  | NoSplit _, NoSplit _ => True
  | _, _ => False
  end.
Section Sim.
Context (M : math) (c : tcfg) (a a' : targs) (W W' : nat) (phi : nat -> nat) (good : nat -> Prop).
Context (TR : trainable c a W) (TR' : trainable c a' W') (AC : all_columns c).
Context (DD : ta_dd a = None) (DD' : ta_dd a' = None) (BU : ta_budget a = None) (BU' : ta_budget a' = None) (IDX : train_rows a' = train_rows a) (LB : ta_labels a' = ta_labels a).
Notation D := (ta_data a).
Notation L := (ta_labels a).
Notation D' := (ta_data a').
Notation fs := (train_feats a).
Notation fs' := (train_feats a').
Context (COL : forall k i, In k fs -> good k -> In i (train_rows a) -> cell D' i (phi k) = cell D i k).
Context (HS : forall I nb e e' out e1, I <> [] -> incl I (train_rows a) -> varied (labels_at L I) ->
  solvable (scfg_of c nb) (sub D fs I) (labels_at L I) (length fs) -> solvable (scfg_of c nb) (sub D' fs' I) (labels_at L I) (length fs') ->
  solve_exactly M (scfg_of c nb) (sub D fs I) (labels_at L I) 0%Qc e = Ok (out, e1) -> good_out good fs out ->
  exists out' e1', solve_exactly M (scfg_of c nb) (sub D' fs' I) (labels_at L I) 0%Qc e' = Ok (out', e1') /\ out_sim phi fs fs' out out').

Definition GoodT (t : tree) : Prop := forall i nd k, nth_error (t_nodes t) i = Some nd -> nd_sf nd = Some k -> good k.
Lemma keeps_good t t1 : keeps t t1 -> GoodT t1 -> GoodT t.
Proof. intros K G i nd k H E. destruct (K i nd H) as [Z|[nd1 [H1 E1]]]; [congruence|]. eapply G; [exact H1|congruence]. Qed.

Record nsim (nd nd' : node) : Prop := {
  m_feats : nd_feats nd = fs; m_feats' : nd_feats nd' = fs'; m_parent : nd_parent nd' = nd_parent nd; m_n : nd_n nd' = nd_n nd;
  m_bins : nd_bins nd' = nd_bins nd; m_depth : nd_depth nd' = nd_depth nd; m_prop : nd_prop nd' = nd_prop nd;
  m_left : nd_left nd' = nd_left nd; m_right : nd_right nd' = nd_right nd; m_dd : nd_dd nd = None /\ nd_dd nd' = None;
  m_counts : nd_counts nd' = nd_counts nd; m_done : nd_split_done nd' = nd_split_done nd; m_sf : nd_sf nd' = option_map phi (nd_sf nd);
  m_computed : nd_computed nd' = nd_computed nd; m_splittable : nd_splittable nd' = nd_splittable nd;
  m_sv : nd_sv nd' = nd_sv nd; m_red : nd_red nd' = nd_red nd;
  m_link : forall f, nd_psf nd = Some f -> exists k f', nd_sf nd = Some k /\ nth_error fs f = Some k /\ nd_psf nd' = Some f' /\ nth_error fs' f' = Some (phi k);
  m_good : forall k, nd_sf nd = Some k -> good k /\ In k fs;
  m_mm : nd_minmax nd = None /\ nd_minmax nd' = None;
  m_caches : nd_probs nd = None /\ nd_plabel nd = None /\ nd_pval nd = None;
  m_caches' : nd_probs nd' = None /\ nd_plabel nd' = None /\ nd_pval nd' = None;
  m_idcs : nd_idcs nd' = nd_idcs nd;
  m_in : incl (nd_idcs nd) (train_rows a); m_ne : nd_idcs nd <> [];
  m_data : (nd_data nd = None /\ nd_labels nd = None /\ nd_data nd' = None /\ nd_labels nd' = None /\ nd_left nd <> None) \/
           (nd_data nd = Some (sub D fs (nd_idcs nd)) /\ nd_labels nd = Some (labels_at L (nd_idcs nd)) /\
            nd_data nd' = Some (sub D' fs' (nd_idcs nd)) /\ nd_labels nd' = Some (labels_at L (nd_idcs nd)));
  m_nb : tc_log_split c = false -> nd_bins nd = tc_nb c;
  m_nn : nd_n nd = length (nd_idcs nd)
}.
Record tsim (t t' : tree) : Prop := {
  y_n : t_n t' = t_n t; y_dd : t_dd t = None /\ t_dd t' = None; y_feats : t_feats t = fs; y_feats' : t_feats t' = fs';
  y_leaves : t_leaves t' = t_leaves t; y_budget : t_budget t = None /\ t_budget t' = None;
  y_splits : t_splits t' = t_splits t; y_depth : t_depth t' = t_depth t;
  y_data : t_data t = D; y_labels : t_labels t = L; y_data' : t_data t' = D'; y_labels' : t_labels t' = L;
  y_nodes : Forall2 nsim (t_nodes t) (t_nodes t')
}.

Lemma in_rows' i : In i (train_rows a) -> i < length D'.
Proof. intros H. rewrite <- (tr_len _ _ _ TR'). apply (tr_rows_in _ _ _ TR'). now rewrite IDX. Qed.
Lemma new_sim t t' p I d pr b e e' nd e1 : tsim t t' -> I <> [] -> incl I (train_rows a) -> (tc_log_split c = false -> b = tc_nb c) ->
  node_new c t p I d pr b e = Ok (nd, e1) -> exists nd' e1', node_new c t' p I d pr b e' = Ok (nd', e1') /\ nsim nd nd'.
Proof.
  intros Y NE IN NB H. destruct AC as (_ & _ & _ & FS & MM). unfold node_new in *. rewrite (y_feats _ _ Y), (proj1 (y_dd _ _ Y)), (y_data _ _ Y), (y_labels _ _ Y), FS, MM in H. rewrite (y_feats' _ _ Y), (proj2 (y_dd _ _ Y)), (y_data' _ _ Y), (y_labels' _ _ Y), FS, MM. cbv zeta in *.
  cbn [choose_features rbind reindex_minmax] in *.
  apply rbind_ok in H. destruct H as [dd [E2 H]]. apply rbind_ok in H. destruct H as [ll [E3 H]]. apply rbind_ok in H. destruct H as [cs [E5 H]]. apply ok_pair_inv in H. destruct H as [<- _].
  assert (T2 : exists d2, get_subset_2d D' I fs' = Ok d2).
  { unfold get_subset_2d. apply mapM_total. intros i Hi. pose proof (in_rows' i (IN i Hi)) as W1. unfold nth_res at 1. rewrite (nth_error_nth' _ [] W1). cbn [rbind].
    apply mapM_total. intros f Hf. unfold nth_res. destruct (nth_error (nth i D' []) f) eqn:Z; [eauto|]. apply nth_error_None in Z. pose proof (tr_feats_in _ _ _ TR' f Hf). rewrite (tr_rect _ _ _ TR' (nth i D' [])) in Z by now apply nth_In. lia. }
  destruct T2 as [d2 T2]. rewrite T2. cbn [rbind]. rewrite E3. cbn [rbind]. rewrite E5. cbn [rbind]. eexists _, _. split; [reflexivity|].
  pose proof (take_idx_map _ _ _ 0%Qc E3) as M3. pose proof (subset_2d_map _ _ _ _ E2) as M2. pose proof (subset_2d_map _ _ _ _ T2) as M2'.
  constructor; cbn; auto; try discriminate.
  - right. rewrite M2, M2', M3. repeat split.
  - rewrite (take_idx_len _ _ _ E3). reflexivity.
Qed.

Lemma sub_solvable aa WW nb I : trainable c aa WW -> train_rows aa = train_rows a -> ta_labels aa = L -> I <> [] -> incl I (train_rows a) -> (tc_bin c = LINEAR -> 2 <= nb) ->
  solvable (scfg_of c nb) (sub (ta_data aa) (train_feats aa) I) (labels_at L I) (length (train_feats aa)).
Proof.
  intros TA EI EL NE IN NB. constructor; cbn [scfg_of s_bin s_nb s_minmax s_dd s_class s_measure]; auto.
  - intros r H. apply in_map_iff in H. destruct H as [i [<- _]]. apply map_length.
  - unfold sub. destruct I; [contradiction|discriminate].
  - unfold sub, labels_at. now rewrite !map_length.
  - destruct AC as (_ & [B|B] & _); rewrite B; auto.
  - pose proof (tr_crit _ _ _ TR) as TC. destruct (tc_class c); auto. destruct TC as [E|[E|[E L2]]]; auto. right. right. split; auto. eapply Nat.le_trans; [|exact L2].
    apply NoDup_incl_length; [apply NoDup_nodup|]. intros x H. apply nodup_In in H. apply nodup_In. unfold labels_at in *. apply in_map_iff in H. destruct H as [i [<- H]]. apply in_map_iff. exists i. auto.
Qed.
Lemma solve_sim nd nd' b b' e e' out bins e1 : nsim nd nd' -> check_constraints c nd = Ok true -> node_solve M c nd b e = Ok (out, bins, e1) -> good_out good fs out ->
  exists out' e1', node_solve M c nd' b' e' = Ok (out', bins, e1') /\ out_sim phi fs fs' out out'.
Proof.
  intros N CK H GO. destruct AC as (EX & BT & BO & _ & _). unfold node_solve in *. cbv zeta in *. rewrite EX in *. rewrite (m_n _ _ N), (m_bins _ _ N), (proj2 (m_dd _ _ N)), (proj2 (m_mm _ _ N)). rewrite (proj1 (m_dd _ _ N)), (proj1 (m_mm _ _ N)) in H.
  apply rbind_ok in H. destruct H as [dd [E1 H]]. apply rbind_ok in H. destruct H as [ll [E2 H]]. apply opt_res_ok in E1, E2.
  destruct (m_data _ _ N) as [[Z _]|(D1 & D2 & D3 & D4)]; [congruence|]. rewrite D3, D4. cbn [opt_res rbind]. assert (dd = sub D fs (nd_idcs nd)) by congruence. assert (ll = labels_at L (nd_idcs nd)) by congruence. subst dd ll.
  set (bb := if tc_log_split c then Nat.log2 (nd_n nd) + 1 else nd_bins nd) in *. fold (scfg_of c bb) in H. fold (scfg_of c bb).
  apply rbind_ok in H. destruct H as [[o1 e2] [ES H]]. cbn [fst snd] in H. apply ok_pair_inv in H. destruct H as [H <-]. apply pair_equal_spec in H. destruct H as [<- <-].
  unfold check_constraints in CK. apply rbind_ok in CK. destruct CK as [dp [_ CK]]. destruct dp; cbn [negb] in CK; [|discriminate]. destruct (tc_min_split c <? nd_n nd); cbn [negb] in CK; [|discriminate].
  rewrite D2 in CK. cbn [opt_res rbind] in CK. assert (VAR : varied (labels_at L (nd_idcs nd))) by (apply unique_varied; congruence). clear CK.
  assert (NI : 2 <= length (nd_idcs nd)).
  { destruct VAR as [x [y [I1 [I2 NE]]]]. unfold labels_at in *. destruct (nd_idcs nd) as [|i [|j l]]; cbn in *; try tauto; try lia. destruct I1 as [<-|[]], I2 as [<-|[]]. contradiction. }
  assert (NB : tc_bin c = LINEAR -> 2 <= bb).
  { intros BL. unfold bb. unfold bins_ok in BO. rewrite BL in BO. destruct (tc_log_split c) eqn:LG; [|rewrite (m_nb _ _ N LG); destruct BO as [BX|BX]; [congruence|auto]].
    rewrite (m_nn _ _ N). assert (1 <= Nat.log2 (length (nd_idcs nd))) by (apply Nat.log2_le_pow2; cbn; lia). lia. }
  destruct (HS (nd_idcs nd) bb e e' o1 e2) as (out' & e1' & H' & OS); auto; try apply N.
  - eapply sub_solvable; eauto; apply N.
  - eapply sub_solvable; eauto; apply N.
  - rewrite H'. cbn [rbind fst snd]. eauto.
Qed.

Lemma constraints_sim nd nd' : nsim nd nd' -> check_constraints c nd' = check_constraints c nd.
Proof.
  intros N. unfold check_constraints. rewrite (m_depth _ _ N), (m_n _ _ N). destruct (m_data _ _ N) as [(_ & -> & _ & -> & _)|(_ & -> & _ & ->)]; auto.
Qed.
Lemma best_sim nd nd' b b' e e' x o e1 : nsim nd nd' -> nd_computed nd = true \/ check_constraints c nd = Ok true -> calculate_best_split M c nd b e = Ok (x, o, e1) -> (forall k, nd_sf x = Some k -> good k) ->
  (nd_computed nd = false -> nd_sf nd = None) ->
  exists x' e1', calculate_best_split M c nd' b' e' = Ok (x', o, e1') /\ nsim x x'.
Proof.
  intros N CK H GX FR. unfold calculate_best_split in *. rewrite (m_computed _ _ N). destruct (nd_computed nd) eqn:C.
  { apply ok_pair_inv in H. destruct H as [H <-]. apply pair_equal_spec in H. destruct H as [<- <-]. exists nd', e'. rewrite (m_red _ _ N). auto. }
  destruct CK as [CK|CK]; [discriminate|].
  apply rbind_ok in H. destruct H as [[[out bins] e2] [ES H]].
  assert (BN : tc_log_split c = false -> bins = tc_nb c) by (intros LG; rewrite (node_solve_bins M c _ _ _ _ _ _ ES), LG; now apply N).
  assert (GO : good_out good fs out).
  { destruct out as [f v r q|q]; cbn; auto. intros k Hk. apply rbind_ok in H. destruct H as [sf [E1 H]]. apply nth_res_ok in E1. rewrite (m_feats _ _ N) in E1. apply ok_pair_inv in H. destruct H as [H _]. apply pair_equal_spec in H. destruct H as [<- _]. apply GX. cbn. congruence. }
  destruct (solve_sim nd nd' b b' e e' out bins e2 N CK ES GO) as (out' & e2' & ES' & OS). rewrite ES'. cbn [rbind].
  destruct out as [f v r q|q], out' as [f' v' r' q'|q']; cbn [out_sim] in OS; try contradiction.
  - destruct OS as (-> & -> & k & K1 & K2). unfold nth_res in *. rewrite (m_feats _ _ N), K1 in H. rewrite (m_feats' _ _ N), K2. cbn [rbind] in *. apply ok_pair_inv in H. destruct H as [H <-]. apply pair_equal_spec in H. destruct H as [<- <-].
    rewrite (m_prop _ _ N). eexists _, _. split; [reflexivity|]. destruct N. constructor; cbn; auto.
    + intros f0 E. injection E as <-. eauto 10.
    + intros k0 E. injection E as <-. split; [apply GX; reflexivity|]. eapply nth_error_In; eauto.
  - apply ok_pair_inv in H. destruct H as [H <-]. apply pair_equal_spec in H. destruct H as [<- <-]. eexists _, _. split; [reflexivity|]. destruct N. constructor; cbn; auto.
Qed.
Lemma splittable_sim t t' nd nd' e e' b x e1 : t_n t' = t_n t -> nsim nd nd' -> nd_computed nd = true -> check_splittable M c t nd e = Ok (b, x, e1) ->
  exists e1', check_splittable M c t' nd' e' = Ok (b, nd', e1') /\ x = nd.
Proof.
  intros TN N C H. pose proof (splittable_same _ _ _ _ _ _ _ _ C H) as ->. unfold check_splittable in *. rewrite (constraints_sim nd nd' N). apply rbind_ok in H. destruct H as [ok [E1 H]]. rewrite E1. cbn [rbind].
  destruct ok; cbn [negb] in *; [|assert (b = false) by congruence; subst; eauto].
  unfold calculate_best_split in *. rewrite (m_computed _ _ N), C in *. cbn [rbind] in *. rewrite (m_red _ _ N). destruct (nd_red nd) as [r|]; [|assert (b = false) by congruence; subst; eauto].
  rewrite ?(m_computed _ _ N), ?C in *. cbn [rbind opt_res] in *. rewrite ?(m_red _ _ N). cbn [opt_res rbind]. rewrite TN, (m_n _ _ N). match type of H with Ok (?bb, _, _) = _ => assert (bb = b) as -> by congruence end. eauto.
Qed.

Lemma put_sim t t' id nd nd' : tsim t t' -> nsim nd nd' -> tsim (put_node t id nd) (put_node t' id nd').
Proof. intros [] N. constructor; cbn; auto. now apply Forall2_set2. Qed.
Lemma pay_sim t t' q q' : tsim t t' -> tsim (pay t q) (pay t' q').
Proof. intros []. constructor; cbn; auto. destruct y_budget0 as [-> ->]. auto. Qed.
Lemma wsplit_sim nd nd' b : nsim nd nd' -> nsim (with_splittable nd b) (with_splittable nd' b).
Proof. intros []. constructor; cbn; auto. Qed.

Record zsim (z z' : scan) : Prop := {
  z_tree : tsim (sc_tree z) (sc_tree z'); z_best : sc_best z' = sc_best z; z_stop : sc_stop z' = sc_stop z; z_fresh : fresh (sc_tree z);
  z_done : forall pos id x, sc_best z = Some (pos, id, x) -> exists nd, nth_error (t_nodes (sc_tree z)) id = Some nd /\ nd_computed nd = true }.
Lemma scan_sim z z' pos id z1 : zsim z z' -> scan_leaf M c z (pos, id) = Ok z1 -> GoodT (sc_tree z1) -> exists z1', scan_leaf M c z' (pos, id) = Ok z1' /\ zsim z1 z1'.
Proof.
  intros [ZT ZB ZS ZF ZD] H GT. pose proof (scan_steady _ _ _ _ _ _ ZF H) as [SF1 _]. unfold scan_leaf in *. rewrite ZS. destruct (sc_stop z) eqn:EST.
  { assert (z = z1) by congruence. subst z1. exists z'. split; auto. constructor; auto. congruence. }
  apply rbind_ok in H. destruct H as [nd [E1 H]]. apply nth_res_ok in E1. destruct (Forall2_nth _ _ _ _ _ (y_nodes _ _ ZT) E1) as [nd' [E1' N]].
  unfold nth_res. rewrite E1'. cbn [rbind]. rewrite (constraints_sim nd nd' N). apply rbind_ok in H. destruct H as [ok [E2 H]]. rewrite E2. cbn [rbind].
  destruct ok; cbn [negb] in *.
  2:{ match type of H with Ok ?z0 = _ => assert (X : z0 = z1) by congruence end. rewrite <- X in *. eexists. split; [reflexivity|]. constructor; cbn [sc_tree sc_env sc_best sc_stop] in *; auto.
      - apply put_sim; auto. now apply wsplit_sim.
      - intros p i x B. eapply done_put; eauto. }
  destruct (y_budget _ _ ZT) as [B1 B2]. rewrite B2. rewrite B1 in H.
  apply rbind_ok in H. destruct H as [[[nd1 red] e1] [E3 H]]. destruct (best_computed _ _ _ _ _ _ _ _ E3) as [C1 _]. cbv zeta in *.
  set (t2 := if nd_computed nd then put_node (sc_tree z) id nd1 else pay (put_node (sc_tree z) id nd1) (nd_queries nd1)) in *.
  assert (TN : t_nodes t2 = t_nodes (put_node (sc_tree z) id nd1)) by (unfold t2; destruct (nd_computed nd); reflexivity).
  assert (A2 : nth_error (t_nodes t2) id = Some nd1) by (rewrite TN; cbn [put_node set_nodes t_nodes]; now rewrite set_nth_nth, E1, Nat.eqb_refl).
  apply rbind_ok in H. destruct H as [[[spl nd3] e3] [E4 H]]. match type of H with Ok ?z0 = _ => assert (X : z0 = z1) by congruence end. rewrite <- X in *. clear X H. cbn [sc_tree] in *.
  assert (Q : nd3 = nd1 \/ nd3 = with_splittable nd1 spl).
  { destruct (nd_splittable nd1); [left; congruence|]. apply rbind_ok in E4. destruct E4 as [[[b nd2] e2] [E5 E4]]. apply (splittable_same _ _ _ _ _ _ _ _ C1) in E5. subst nd2. right. congruence. }
  assert (QS : nd_sf nd3 = nd_sf nd1 /\ nd_computed nd3 = true) by (destruct Q as [->| ->]; auto). destruct QS as [QS QC].
  assert (A3 : nth_error (t_nodes (put_node t2 id nd3)) id = Some nd3) by (cbn [put_node set_nodes t_nodes]; now rewrite set_nth_nth, A2, Nat.eqb_refl).
  destruct (best_sim nd nd' None None (sc_env z) (sc_env z') nd1 red e1 N (or_intror E2) E3) as (nd1' & e1' & E3' & N1). { intros k Hk. eapply GT; [exact A3|congruence]. } { intros Z. eapply ZF; eauto. }
  rewrite E3'. cbn [rbind]. rewrite (m_computed _ _ N), (m_splittable _ _ N1).
  set (t2' := if nd_computed nd then put_node (sc_tree z') id nd1' else pay (put_node (sc_tree z') id nd1') (nd_queries nd1')) in *.
  assert (T2 : tsim t2 t2') by (unfold t2, t2'; destruct (nd_computed nd); [now apply put_sim|apply pay_sim; now apply put_sim]).
  assert (G : exists nd3' e3', match nd_splittable nd1 with Some b => Ok (b, nd1', e1') | None => do k <- check_splittable M c t2' nd1' e1'; let '(b, nd2, e2) := k in Ok (b, with_splittable nd2 b, e2) end = Ok (spl, nd3', e3') /\ nsim nd3 nd3').
  { destruct (nd_splittable nd1).
    - apply ok_pair_inv in E4. destruct E4 as [E4 <-]. apply pair_equal_spec in E4. destruct E4 as [<- <-]. eauto.
    - apply rbind_ok in E4. destruct E4 as [[[b nd2] e2] [E5 E4]]. destruct (splittable_sim t2 t2' nd1 nd1' e1 e1' b nd2 e2 (y_n _ _ T2) N1 C1 E5) as (e2' & E5' & ->). rewrite E5'. cbn [rbind].
      apply ok_pair_inv in E4. destruct E4 as [E4 <-]. apply pair_equal_spec in E4. destruct E4 as [<- <-]. eexists _, _. split; [reflexivity|]. now apply wsplit_sim. }
  destruct G as (nd3' & e3' & G & N3). rewrite G. cbn [rbind].
  eexists. split; [reflexivity|]. constructor; cbn [sc_tree sc_env sc_best sc_stop]; auto.
  - now apply put_sim.
  - now rewrite ZB.
  - assert (KEEP : forall i, (exists n, nth_error (t_nodes (sc_tree z)) i = Some n /\ nd_computed n = true) -> exists n, nth_error (t_nodes (put_node t2 id nd3)) i = Some n /\ nd_computed n = true).
    { intros i EI. apply done_put with (nd0 := nd1); auto. rewrite TN. eapply done_put; eauto. }
    intros p i x B. destruct red as [y|]; [|apply KEEP; eapply ZD; eauto].
    match type of B with (if ?b then _ else _) = _ => destruct b end; [|apply KEEP; eapply ZD; eauto].
    assert (id = i) by congruence. subst i. exists nd3. split; auto.
Qed.
Lemma scans_sim l : forall z z' z1, zsim z z' -> foldM (scan_leaf M c) z l = Ok z1 -> GoodT (sc_tree z1) -> exists z1', foldM (scan_leaf M c) z' l = Ok z1' /\ zsim z1 z1'.
Proof.
  induction l as [|[pos id] l IH]; intros z z' z1 Z H GT; cbn [foldM] in *; [assert (z = z1) by congruence; subst; eauto|].
  apply rbind_ok in H. destruct H as [z2 [E H]]. pose proof (scan_steady _ _ _ _ _ _ (z_fresh _ _ Z) E) as [F2 _]. pose proof (scans_steady _ _ _ _ _ F2 H) as [_ K2].
  destruct (scan_sim z z' pos id z2 Z E (keeps_good _ _ K2 GT)) as (z2' & E' & Z2). rewrite E'. cbn [rbind]. eauto.
Qed.

Lemma col_sub X gs I f k : nth_error gs f = Some k -> col (sub X gs I) f = Ok (map (fun i => cell X i k) I).
Proof.
  intros F. unfold col, sub. rewrite mapM_map. induction I as [|i I IH]; cbn [map mapM]; auto. unfold nth_res at 1. rewrite nth_error_map, F. cbn [option_map rbind]. now rewrite IH.
Qed.
Lemma split_sim t t' id e e' t1 e1 : tsim t t' -> (exists nd, nth_error (t_nodes t) id = Some nd /\ nd_computed nd = true) -> node_split M c t id e = Ok (t1, e1) ->
  exists t1' e1', node_split M c t' id e' = Ok (t1', e1') /\ tsim t1 t1'.
Proof.
  intros T (nd & A & C) H. destruct (Forall2_nth _ _ _ _ _ (y_nodes _ _ T) A) as [nd' [A' N]]. unfold node_split in *. unfold nth_res in *. rewrite A' . rewrite A in H. cbn [rbind] in *. rewrite (m_done _ _ N).
  apply rbind_ok in H. destruct H as [[] [G1 H]]. rewrite G1. cbn [rbind]. unfold calculate_best_split in *. rewrite C in H. rewrite (m_computed _ _ N), C.
  assert (Q : match nd_sf nd with Some _ => Ok (nd, e) | None => do r <- Ok (nd, nd_red nd, e); Ok (fst (fst r), snd r) end = Ok (nd, e)) by (destruct (nd_sf nd); reflexivity).
  assert (Q' : match nd_sf nd' with Some _ => Ok (nd', e') | None => do r <- Ok (nd', nd_red nd', e'); Ok (fst (fst r), snd r) end = Ok (nd', e')) by (destruct (nd_sf nd'); reflexivity).
  rewrite Q in H. rewrite Q'. cbn [rbind] in *. clear Q Q'. rewrite (m_red _ _ N). destruct (nd_red nd) as [red|].
  2:{ apply ok_pair_inv in H. destruct H as [<- <-]. eexists _, _. split; [reflexivity|]. now apply put_sim. }
  apply rbind_ok in H. destruct H as [[] [G2 H]]. rewrite G2. cbn [rbind].
  apply rbind_ok in H. destruct H as [dd [E1 H]]. apply rbind_ok in H. destruct H as [ll [E2 H]]. apply opt_res_ok in E1, E2.
  destruct (m_data _ _ N) as [[Z _]|(D1 & D2 & D3 & D4)]; [congruence|]. rewrite D3, D4. cbn [opt_res rbind]. assert (dd = sub D fs (nd_idcs nd)) by congruence. assert (ll = labels_at L (nd_idcs nd)) by congruence. subst dd ll.
  apply rbind_ok in H. destruct H as [f [E3 H]]. apply opt_res_ok in E3. destruct (m_link _ _ N f E3) as (k & f' & SF & NF & PF' & NF'). rewrite PF'. cbn [opt_res rbind].
  apply rbind_ok in H. destruct H as [v [E4 H]]. apply opt_res_ok in E4. rewrite (m_sv _ _ N), E4. cbn [opt_res rbind].
  rewrite (col_sub D _ _ _ _ NF) in H. rewrite (col_sub D' _ _ _ _ NF'). cbn [rbind] in *. cbv zeta in *. destruct (m_good _ _ N k SF) as [GK IK].
  assert (CE : map (fun i => cell D' i (phi k)) (nd_idcs nd) = map (fun i => cell D i k) (nd_idcs nd)) by (apply map_ext_in; intros i Hi; apply COL; auto; now apply (m_in _ _ N)).
  rewrite CE, (m_idcs _ _ N). clear CE.
  destruct (split_filter v (fun i => cell D i k) (nd_idcs nd)) as [F1 F2]. rewrite F1, F2 in *. clear F1 F2.
  set (LI := filter (fun i => qle (cell D i k) v) (nd_idcs nd)) in *. set (RI := filter (fun i => qlt v (cell D i k)) (nd_idcs nd)) in *.
  destruct ((length LI =? 0) || (length RI =? 0)) eqn:Z; [discriminate|]. apply orb_false_iff in Z. destruct Z as [Z1 Z2].
  apply rbind_ok in H. destruct H as [[nl e2] [C1 H]]. apply rbind_ok in H. destruct H as [[nr e3] [C2 H]]. cbn [fst snd] in *. unfold create_child in *. rewrite (m_depth _ _ N), (m_prop _ _ N), (m_bins _ _ N).
  assert (IL : incl LI (train_rows a)) by (intros i Hi; apply (m_in _ _ N); unfold LI in Hi; now apply filter_In in Hi). assert (IR : incl RI (train_rows a)) by (intros i Hi; apply (m_in _ _ N); unfold RI in Hi; now apply filter_In in Hi).
  assert (NL : LI <> []) by (intros Y; rewrite Y in Z1; discriminate). assert (NR : RI <> []) by (intros Y; rewrite Y in Z2; discriminate).
  destruct (new_sim t t' _ LI _ _ _ e e' nl e2 T NL IL (m_nb _ _ N) C1) as (nl' & e2' & C1' & N1). rewrite C1'. cbn [rbind fst snd].
  destruct (new_sim t t' _ RI _ _ _ e2 e2' nr e3 T NR IR (m_nb _ _ N) C2) as (nr' & e3' & C2' & N2). rewrite C2'. cbn [rbind fst snd].
  apply ok_pair_inv in H. destruct H as [<- <-]. eexists _, _. split; [reflexivity|].
  assert (LN : length (t_nodes t') = length (t_nodes t)) by (symmetry; eapply Forall2_length; apply T). rewrite LN.
  assert (NW : nsim (with_children nd (length (t_nodes t)) (S (length (t_nodes t)))) (with_children nd' (length (t_nodes t)) (S (length (t_nodes t))))).
  { destruct N. constructor; cbn; auto. left. repeat split; auto. discriminate. }
  pose proof (put_sim _ _ id _ _ T NW) as T1. destruct T1. constructor; cbn in *; auto. apply Forall2_app; auto.
Qed.

Lemma depth_sim t t' : tsim t t' -> get_depth t' = get_depth t.
Proof.
  intros T. unfold get_depth. rewrite (y_leaves _ _ T). f_equal. assert (G : forall l, mapM (fun id => do nd <- nth_res (t_nodes t') id; Ok (nd_depth nd)) l = mapM (fun id => do nd <- nth_res (t_nodes t) id; Ok (nd_depth nd)) l).
  { induction l as [|id l IH]; cbn [mapM]; auto. assert (Q : (do nd <- nth_res (t_nodes t') id; Ok (nd_depth nd)) = (do nd <- nth_res (t_nodes t) id; Ok (nd_depth nd))).
    { unfold nth_res. destruct (nth_error (t_nodes t) id) as [nd|] eqn:E.
      - destruct (Forall2_nth _ _ _ _ _ (y_nodes _ _ T) E) as [nd' [-> N]]. cbn. now rewrite (m_depth _ _ N).
      - destruct (nth_error (t_nodes t') id) as [nd'|] eqn:E'; auto. destruct (Forall2_nth' _ _ _ _ _ (y_nodes _ _ T) E') as [nd [E2 _]]. congruence. }
    rewrite Q, IH. reflexivity. }
  apply G.
Qed.
Lemma set_depth_sim t t' d : tsim t t' -> tsim (set_depth t d) (set_depth t' d).
Proof. intros []. constructor; cbn; auto. Qed.
Lemma step_sim t t' e e' t1 e1 b : tsim t t' -> fresh t -> fit_step M c t e = Ok (t1, e1, b) -> GoodT t1 -> exists t1' e1', fit_step M c t' e' = Ok (t1', e1', b) /\ tsim t1 t1'.
Proof.
  intros T FR H GT. unfold fit_step in *. apply rbind_ok in H. destruct H as [z [EZ H]]. rewrite (y_leaves _ _ T).
  pose proof (scans_steady M c _ {| sc_tree := t; sc_env := e; sc_best := None; sc_stop := false |} z FR EZ) as [FZ _].
  assert (Z0 : zsim {| sc_tree := t; sc_env := e; sc_best := None; sc_stop := false |} {| sc_tree := t'; sc_env := e'; sc_best := None; sc_stop := false |}) by (constructor; cbn; auto; discriminate).
  cbv zeta in *. apply rbind_ok in H. destruct H as [[[t3 e3] cont] [EC H]]. apply rbind_ok in H. destruct H as [d [ED H]]. apply ok_pair_inv in H. destruct H as [H <-]. apply pair_equal_spec in H. destruct H as [<- <-].
  assert (GZ : GoodT (sc_tree z)).
  { apply keeps_good with (t1 := t3); [|exact GT]. destruct (sc_best z) as [[[pos id] x]|]; [|assert (sc_tree z = t3) by congruence; subst; apply keeps_refl]. destruct (xlt x _); [|assert (sc_tree z = t3) by congruence; subst; apply keeps_refl].
    apply rbind_ok in EC. destruct EC as [[t2 e2] [E2 EC]]. cbn [fst snd] in EC. apply rbind_ok in EC. destruct EC as [nd [A EC]]. apply nth_res_ok in A. cbn [inc_splits t_nodes] in A.
    apply ok_pair_inv in EC. destruct EC as [EC _]. apply pair_equal_spec in EC. destruct EC as [<- _]. pose proof (split_steady _ _ _ _ _ _ _ FZ E2) as S2. eapply keeps_trans; [apply S2|].
    apply (nodes_steady _ (put_node t2 id (with_preds nd None None (nd_pval nd)))); [reflexivity|]. apply put_steady with (nd := nd); [apply S2|auto|right; reflexivity|]. intros Z. exact (proj1 S2 _ _ A Z). }
  destruct (scans_sim _ _ _ _ Z0 EZ GZ) as (z' & EZ' & [ZT ZB ZS ZF ZD]).
  rewrite EZ'. cbn [rbind]. rewrite ZB.
  assert (G : exists t3' e3', match sc_best z with
            | Some (pos, id, x) =>
                if xlt x (Fin (tc_min_imp c)) then
                  do te <- node_split M c (sc_tree z') id (sc_env z');
                  do nd <- nth_res (t_nodes (inc_splits (fst te))) id;
                  Ok (set_leaves (put_node (inc_splits (fst te)) id (with_preds nd None None (nd_pval nd)))
                        match nd_left nd, nd_right nd with Some l, Some r => remove_nth pos (t_leaves (inc_splits (fst te))) ++ [l; r] | _, _ => remove_nth pos (t_leaves (inc_splits (fst te))) end, snd te, true)
                else Ok (sc_tree z', sc_env z', false)
            | None => Ok (sc_tree z', sc_env z', false) end = Ok (t3', e3', cont) /\ tsim t3 t3').
  { destruct (sc_best z) as [[[pos id] x]|] eqn:SB.
    2:{ assert (sc_tree z = t3 /\ false = cont) as (<- & <-) by (split; congruence). eauto. }
    destruct (xlt x _).
    2:{ assert (sc_tree z = t3 /\ false = cont) as (<- & <-) by (split; congruence). eauto. }
    apply rbind_ok in EC. destruct EC as [[t2 e2] [E2 EC]]. destruct (split_sim _ _ _ _ (sc_env z') _ _ ZT (ZD _ _ _ eq_refl) E2) as (t2' & e2' & E2' & T2). rewrite E2'. cbn [rbind fst snd] in *.
    apply rbind_ok in EC. destruct EC as [nd [A EC]]. apply nth_res_ok in A. cbn [inc_splits t_nodes] in A. destruct (Forall2_nth _ _ _ _ _ (y_nodes _ _ T2) A) as [nd' [A' N]].
    unfold nth_res. cbn [inc_splits t_nodes t_leaves]. rewrite A'. cbn [rbind]. rewrite (m_left _ _ N), (m_right _ _ N), (y_leaves _ _ T2).
    apply ok_pair_inv in EC. destruct EC as [EC <-]. apply pair_equal_spec in EC. destruct EC as [<- <-]. eexists _, _. split; [reflexivity|].
    assert (NW : nsim (with_preds nd None None (nd_pval nd)) (with_preds nd' None None (nd_pval nd'))).
    { destruct N. constructor; cbn; auto; [destruct m_caches0 as (_ & _ & ?)|destruct m_caches'0 as (_ & _ & ?)]; auto. }
    assert (T2' : tsim (inc_splits t2) (inc_splits t2')) by (destruct T2; constructor; cbn; auto).
    pose proof (put_sim _ _ id _ _ T2' NW) as T3. destruct T3. constructor; cbn in *; auto. }
  destruct G as (t3' & e3' & G & T3). cbv zeta in G.
  match goal with |- exists _ _, (do tec <- ?m; _) = _ /\ _ => replace m with (Ok (t3', e3', cont)) by (symmetry; exact G) end. cbn [rbind].
  rewrite (depth_sim _ _ T3), ED. cbn [rbind]. eexists _, _. split; [reflexivity|]. now apply set_depth_sim.
Qed.
Lemma loop_sim fuel : forall t t' e e' t1 e1, tsim t t' -> fresh t -> fit_loop M c fuel t e = Ok (t1, e1) -> GoodT t1 -> exists t1' e1', fit_loop M c fuel t' e' = Ok (t1', e1') /\ tsim t1 t1'.
Proof.
  induction fuel as [|fuel IH]; intros t t' e e' t1 e1 T FR H GT; cbn [fit_loop] in *; rewrite (y_leaves _ _ T); apply rbind_ok in H; destruct H as [stop [E1 H]]; rewrite E1; cbn [rbind]; destruct stop.
  - apply ok_pair_inv in H. destruct H as [<- <-]. eauto.
  - discriminate H.
  - apply ok_pair_inv in H. destruct H as [<- <-]. eauto.
  - apply rbind_ok in H. destruct H as [[[t2 e2] b] [E2 H]]. pose proof (step_steady _ _ _ _ _ _ _ FR E2) as [F2 _].
    assert (G2 : GoodT t2). { destruct b; [|assert (t2 = t1) by congruence; now subst]. eapply keeps_good; [|exact GT]. eapply loop_steady; eauto. }
    destruct (step_sim _ _ _ e' _ _ _ T FR E2 G2) as (t2' & e2' & E2' & T2). rewrite E2'. cbn [rbind].
    destruct b; [eapply IH; eauto|]. apply ok_pair_inv in H. destruct H as [<- <-]. eauto.
Qed.
Lemma rows_leaf_sim t t' : tsim t t' -> leaf_rows t' = leaf_rows t.
Proof.
  intros T. unfold leaf_rows. rewrite (y_leaves _ _ T). f_equal. apply map_ext. intros id. destruct (nth_error (t_nodes t) id) as [nd|] eqn:E.
  - destruct (Forall2_nth _ _ _ _ _ (y_nodes _ _ T) E) as [nd' [-> N]]. apply N.
  - destruct (nth_error (t_nodes t') id) as [nd'|] eqn:E'; auto. destruct (Forall2_nth' _ _ _ _ _ (y_nodes _ _ T) E') as [nd [E2 _]]. congruence.
Qed.
Lemma feats_given aa WW : trainable c aa WW -> match ta_feats aa with Some l => Ok l | None => do r0 <- nth_res (ta_data aa) 0; Ok (arange (length r0)) end = Ok (train_feats aa).
Proof. intros T. pose proof (train_nonempty _ _ _ T) as NE. unfold train_feats. destruct (ta_feats aa); auto. destruct (ta_data aa); [contradiction|]. reflexivity. Qed.

Lemma built_sim P e e' t : built P M c a e t -> GoodT t -> exists t', built P M c a' e' t' /\ tsim t t'.
Proof.
  intros (t0 & e0 & e1 & H1 & H2) GT. unfold tree_new in H1.
  apply rbind_ok in H1. destruct H1 as [[] [_ H1]]. rewrite (feats_given a W TR) in H1. cbn [rbind] in H1. apply rbind_ok in H1. destruct H1 as [[nd e2] [EN H1]]. cbn [fst snd] in H1. apply ok_pair_inv in H1. destruct H1 as [<- <-].
  set (e3' := set_gen (set_seed P (ta_seed a') e') (seed_gen P (ta_seed a'))).
  set (b0 := {| t_data := D; t_labels := L; t_n := length L; t_dd := ta_dd a; t_feats := fs; t_nodes := []; t_leaves := []; t_budget := ta_budget a; t_queries := 0; t_splits := 0; t_depth := 1 |}) in *.
  set (b0' := {| t_data := D'; t_labels := ta_labels a'; t_n := length (ta_labels a'); t_dd := ta_dd a'; t_feats := fs'; t_nodes := []; t_leaves := []; t_budget := ta_budget a'; t_queries := 0; t_splits := 0; t_depth := 1 |}).
  assert (T0 : tsim b0 b0'). { constructor; cbn; auto. now rewrite LB. }
  destruct (new_sim b0 b0' None (train_rows a) 0 1%Qc (tc_nb c) _ e3' nd e2 T0 (tr_rows _ _ _ TR) (incl_refl _) (fun _ => eq_refl) EN) as (nd' & e2' & EN' & N).
  assert (T1 : tsim (set_nodes b0 [nd]) (set_nodes b0' [nd'])). { destruct T0. constructor; cbn in *; auto. }
  unfold tree_fit in H2. cbn [rbind] in H2. destruct AC as (_ & BT & _). assert (MK : (match tc_bin c with LINEAR | IDENTITY => false | _ => tc_make_discrete c end) = false) by (destruct BT as [B|B]; rewrite B; reflexivity). rewrite MK in H2. cbn [rbind] in H2.
  rewrite (tr_splitter _ _ _ TR) in H2. set (t1 := set_leaves (set_nodes b0 [nd]) (t_leaves (set_nodes b0 [nd]) ++ [0])) in *. set (t1' := set_leaves (set_nodes b0' [nd']) (t_leaves (set_nodes b0' [nd']) ++ [0])).
  assert (T2 : tsim t1 t1'). { destruct T1. constructor; cbn in *; auto. }
  assert (F1 : fresh t1). { intros i x X _. apply new_fresh in EN. destruct i as [|[|i]]; cbn in X; try discriminate. injection X as <-. tauto. }
  destruct (loop_sim _ t1 t1' e2 e2' t e1 T2 F1 H2 GT) as (t' & e4 & HL & TT). exists t'. split; auto. exists (set_nodes b0' [nd']), e2', e4. split.
  - unfold tree_new. match goal with |- context [guard (?x =? ?y) _] => replace (x =? y) with true by (symmetry; apply Nat.eqb_eq; pose proof (tr_len _ _ _ TR'); congruence) end. cbn [guard rbind]. cbv zeta. rewrite (feats_given a' W' TR'). cbn [rbind]. fold e3'. change (match ta_idcs a' with Some l => l | None => arange (length (ta_labels a')) end) with (train_rows a'). fold b0'.
    rewrite IDX, EN'. reflexivity.
  - unfold tree_fit. cbn [rbind]. rewrite MK. cbn [rbind]. rewrite (tr_splitter _ _ _ TR). cbv zeta. fold t1'. rewrite (rows_leaf_sim _ _ T2). exact HL.
Qed.

Lemma walk_sim t t' x x' : tsim t t' -> (forall k, In k fs -> good k -> nth_error x' (phi k) = nth_error x k) -> forall fuel id, walk (t_nodes t') fuel id x' = walk (t_nodes t) fuel id x.
Proof.
  intros T HX. assert (Z : forall id, match nth_error (t_nodes t) id with Some nd => exists nd', nth_error (t_nodes t') id = Some nd' /\ nsim nd nd' | None => nth_error (t_nodes t') id = None end).
  { intros id. destruct (nth_error (t_nodes t) id) as [nd|] eqn:E; [exact (Forall2_nth _ _ _ _ _ (y_nodes _ _ T) E)|].
    destruct (nth_error (t_nodes t') id) as [nd'|] eqn:E'; auto. destruct (Forall2_nth' _ _ _ _ _ (y_nodes _ _ T) E') as [nd [E2 _]]. congruence. }
  induction fuel as [|fuel IH]; intros id; cbn [walk]; unfold nth_res; specialize (Z id); destruct (nth_error (t_nodes t) id) as [nd|]; [destruct Z as [nd' [-> N]]|rewrite Z; reflexivity|destruct Z as [nd' [-> N]]|rewrite Z; reflexivity]; cbn [rbind]; rewrite (m_left _ _ N), (m_right _ _ N); [reflexivity|].
  destruct (nd_left nd) as [l|]; auto. rewrite (m_sf _ _ N), (m_sv _ _ N). destruct (nd_sf nd) as [k|] eqn:SF; auto. cbn [option_map opt_res rbind]. destruct (nd_sv nd) as [v|]; auto. cbn [opt_res rbind].
  destruct (m_good _ _ N k SF) as [GK IK]. rewrite (HX k IK GK). destruct (nth_error x k) as [xv|]; auto. cbn [rbind]. destruct (qle xv v); auto. destruct (nd_right nd); auto. apply IH.
Qed.
Lemma predict_sim t t' x x' : tsim t t' -> (forall k, In k fs -> good k -> nth_error x' (phi k) = nth_error x k) -> answer (tree_predict c t' x') = answer (tree_predict c t x).
Proof.
  intros T HX. unfold tree_predict. assert (LN : length (t_nodes t') = length (t_nodes t)) by (symmetry; eapply Forall2_length; apply T). rewrite LN, (walk_sim t t' x x' T HX).
  destruct (walk (t_nodes t) (length (t_nodes t)) 0 x) as [id|] eqn:EW; cbn [rbind]; [|reflexivity]. destruct (walk_end _ _ _ _ _ EW) as [nd [E LF]]. destruct (Forall2_nth _ _ _ _ _ (y_nodes _ _ T) E) as [nd' [E' N]].
  unfold nth_res. rewrite E, E'. cbn [rbind]. destruct (m_caches _ _ N) as (P1 & P2 & P3). destruct (m_caches' _ _ N) as (P1' & P2' & P3'). rewrite P1, P1', P3, P3', (m_counts _ _ N).
  case_eq (tc_class c); intros IC.
  - destruct (argmax _) as [i|]; cbn [rbind answer]; auto. destruct (idx_to_class (tc_classes c) i) as [l|]; cbn [option_map opt_res rbind]; auto.
    match goal with |- context [guard ?b _] => destruct b end; reflexivity.
  - destruct (m_data _ _ N) as [(_ & _ & _ & _ & Z)|(_ & Q1 & _ & Q2)]; [congruence|]. rewrite Q1, Q2. cbn [opt_res rbind]. destruct (length (labels_at L (nd_idcs nd)) =? 0); reflexivity.
Qed.
Lemma tsim_col t t' : tsim t t' -> col_tree phi t t'.
Proof. intros [? ? ? ? ? ? ? ? ? ? ? ? F]. constructor; auto. clear - F. induction F as [|nd nd' l l' N F IH]; constructor; auto. destruct N. constructor; auto. Qed.
Lemma columns_tree P e e' t : built P M c a e t -> (forall nd k, In nd (t_nodes t) -> nd_sf nd = Some k -> good k) -> exists t', built P M c a' e' t' /\ col_tree phi t t' /\
  forall x x', (forall k, In k fs -> good k -> nth_error x' (phi k) = nth_error x k) -> answer (tree_predict c t' x') = answer (tree_predict c t x).
Proof.
  intros H G. destruct (built_sim P e e' t H) as (t' & H' & T). { intros i nd k Hi. apply G. eapply nth_error_In; eauto. }
  exists t'. split; auto. split; [now apply tsim_col|]. intros x x' HX. now apply predict_sim.
Qed.
End Sim.

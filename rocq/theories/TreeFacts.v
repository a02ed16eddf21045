(** Invariants of tree construction and fitting. *)
From Coq Require Import List Arith Bool ZArith QArith Qcanon Lia Permutation.
From Verif Require Import Base Num Rng Histogram Utils Criteria Solvers Tree Spec SolverSpec TreeSpec NumFacts ListFacts HistFacts DrawFacts.
Import ListNotations.
Local Open Scope nat_scope.

Ltac ands := repeat match goal with |- _ /\ _ => split end.

(** ** Lists *)
Lemma take_idx_map {A} (l : list A) I r d : take_idx l I = Ok r -> r = map (fun i => nth i l d) I.
Proof.
  unfold take_idx. apply mapM_ok_map. intros i b _ E. apply nth_res_ok in E. symmetry. now apply nth_error_nth.
Qed.
Lemma take_idx_len {A} (l : list A) I r : take_idx l I = Ok r -> length r = length I.
Proof. apply mapM_length. Qed.

Lemma subset_2d_map D I fs d : get_subset_2d D I fs = Ok d -> d = map (fun i => map (cell D i) fs) I.
Proof.
  unfold get_subset_2d. apply mapM_ok_map. intros i b _ E. inv_ok E. apply nth_res_ok in E0.
  assert (ER : nth i D [] = r) by now apply nth_error_nth. unfold cell. rewrite ER.
  eapply mapM_ok_map; [|exact E]. intros f v _ EF. apply nth_res_ok in EF. symmetry. now apply nth_error_nth.
Qed.
Lemma subset_2d_range D I fs d i f : get_subset_2d D I fs = Ok d -> In i I -> In f fs -> i < length D /\ f < length (nth i D []).
Proof.
  unfold get_subset_2d. intros H Hi Hf. apply In_nth_error in Hi. destruct Hi as [k Hk].
  destruct (mapM_nth' _ _ _ _ _ H Hk) as [b [_ E]]. inv_ok E. apply nth_res_ok in E0. split.
  - apply nth_error_Some. congruence.
  - erewrite nth_error_nth by eauto. apply In_nth_error in Hf. destruct Hf as [j Hj]. destruct (mapM_nth' _ _ _ _ _ E Hj) as [x [_ EX]].
    apply nth_res_ok in EX. apply nth_error_Some. congruence.
Qed.

Lemma sum_nat_list_sum l : sum_nat l = list_sum l.
Proof. reflexivity. Qed.
Lemma list_sum_cons x l : list_sum (x :: l) = x + list_sum l.
Proof. reflexivity. Qed.
Lemma choice_norepl_incl pool k t l t' : choice_norepl pool k t = Ok (l, t') -> incl l pool.
Proof.
  unfold choice_norepl. destruct (length pool <? k) eqn:E; [discriminate|]. apply Nat.ltb_ge in E. intros H. injection H as H.
  destruct (pick_k_spec k pool t E) as [rest [P _]]. rewrite H in P. cbn in P. intros x I.
  eapply Permutation_in; [apply Permutation_sym; exact P|]. apply in_or_app. auto.
Qed.
Lemma list_sum_set_nth {A} (g : A -> nat) l i a b : nth_error l i = Some a -> list_sum (map g (set_nth i b l)) + g a = list_sum (map g l) + g b.
Proof.
  revert i. induction l as [|x l IH]; intros [|i] E; try discriminate; cbn [set_nth map]; rewrite !list_sum_cons.
  - cbn in E. injection E as ->. lia.
  - specialize (IH i E). lia.
Qed.

Lemma split_filter (v : Qc) (g : nat -> Qc) I :
  map snd (filter (fun p => qle (fst p) v) (combine (map g I) I)) = filter (fun i => qle (g i) v) I /\
  map snd (filter (fun p => qlt v (fst p)) (combine (map g I) I)) = filter (fun i => qlt v (g i)) I.
Proof.
  induction I as [|i I [IH1 IH2]]; cbn; auto. split.
  - destruct (qle (g i) v); cbn; now rewrite IH1.
  - destruct (qlt v (g i)); cbn; now rewrite IH2.
Qed.

(** ** Parts of a node that fitting never changes while it is a leaf *)
Record same_frame (a b : node) : Prop := {
  sf_feats : nd_feats b = nd_feats a; sf_idcs : nd_idcs b = nd_idcs a; sf_parent : nd_parent b = nd_parent a;
  sf_n : nd_n b = nd_n a; sf_depth : nd_depth b = nd_depth a; sf_prop : nd_prop b = nd_prop a;
  sf_minmax : nd_minmax b = nd_minmax a; sf_dd : nd_dd b = nd_dd a;
  sf_counts : nd_counts b = nd_counts a }.
Record same_shape (a b : node) : Prop := {
  ss_frame : same_frame a b;
  ss_left : nd_left b = nd_left a; ss_right : nd_right b = nd_right a; ss_done : nd_split_done b = nd_split_done a;
  ss_data : nd_data b = nd_data a; ss_labels : nd_labels b = nd_labels a;
  ss_probs : nd_probs b = nd_probs a; ss_plabel : nd_plabel b = nd_plabel a; ss_pval : nd_pval b = nd_pval a }.

Lemma same_frame_refl a : same_frame a a. Proof. constructor; reflexivity. Qed.
Lemma same_shape_refl a : same_shape a a. Proof. constructor; auto using same_frame_refl. Qed.
Lemma same_shape_trans a b d : same_shape a b -> same_shape b d -> same_shape a d.
Proof. intros [[? ? ? ? ? ? ? ? ?] ? ? ? ? ? ? ? ?] [[? ? ? ? ? ? ? ? ?] ? ? ? ? ? ? ? ?]. repeat constructor; congruence. Qed.
Lemma constraints_shape c a b : same_shape a b -> check_constraints c b = check_constraints c a.
Proof. intros S. unfold check_constraints. rewrite (sf_depth _ _ (ss_frame _ _ S)), (sf_n _ _ (ss_frame _ _ S)), (ss_labels _ _ S). reflexivity. Qed.

Section Inv.
Context (M : math) (c : tcfg) (D : list (list Qc)) (L : list Qc) (FS I0 : list nat) (b0 : option Z).

(** A recorded split comes from a solver call on the node's own rows and features. *)
Definition solved_split (nd : node) (f s : nat) (v : Qc) (x : xn) : Prop :=
  exists nd0 budget e r q bins e',
    node_solve M c nd0 budget e = Ok (Found f v r q, bins, e') /\
    nd_data nd0 = Some (map (fun i => map (cell D i) (nd_feats nd)) (nd_idcs nd)) /\
    nd_labels nd0 = Some (labels_at L (nd_idcs nd)) /\
    same_frame nd nd0 /\ nth_error (nd_feats nd) f = Some s /\ x = xmul r (Fin (nd_prop nd)) /\ nd_queries nd = q /\
    (tc_log_split c = false -> nd_bins nd0 = tc_nb c).

(** The solver found no split on the node's own rows and features. *)
Definition failed_split (nd : node) : Prop :=
  exists nd0 budget e q bins e',
    node_solve M c nd0 budget e = Ok (NoSplit q, bins, e') /\
    nd_data nd0 = Some (map (fun i => map (cell D i) (nd_feats nd)) (nd_idcs nd)) /\
    nd_labels nd0 = Some (labels_at L (nd_idcs nd)) /\
    same_frame nd nd0 /\ nd_queries nd = q /\ (tc_log_split c = false -> nd_bins nd0 = tc_nb c).

(** The node may be split. *)
Definition eligible (nd : node) : Prop :=
  below_depth c (nd_depth nd) /\ tc_min_split c < length (nd_idcs nd) /\ varied (labels_at L (nd_idcs nd)).

Record node_ok (nd : node) : Prop := {
  no_n : nd_n nd = length (nd_idcs nd);
  no_ne : nd_idcs nd <> [];
  no_rows : incl (nd_idcs nd) I0;
  no_prop : nd_prop nd = (Nq (length (nd_idcs nd)) / Nq (length I0))%Qc;
  no_feats : incl (nd_feats nd) FS;
  no_depth : within_depth c (nd_depth nd);
  no_range : forall i, In i (nd_idcs nd) -> i < length L /\ i < length D /\ forall f, In f (nd_feats nd) -> f < length (nth i D []);
  no_data : nd_left nd = None -> nd_data nd = Some (map (fun i => map (cell D i) (nd_feats nd)) (nd_idcs nd)) /\
                                 nd_labels nd = Some (labels_at L (nd_idcs nd));
  no_counts : tc_class c = true -> counts_of_labels (tc_classes c) (labels_at L (nd_idcs nd)) = Ok (nd_counts nd);
  no_fresh : nd_computed nd = false -> nd_queries nd = 0 /\ nd_sf nd = None;
  no_nosplit : nd_sf nd = None -> nd_red nd = None;
  no_solved : forall s, nd_sf nd = Some s -> exists f v x, nd_psf nd = Some f /\ nd_sv nd = Some v /\ nd_red nd = Some x /\ solved_split nd f s v x;
  no_caches : nd_probs nd = None /\ nd_plabel nd = None /\ nd_pval nd = None;
  no_bins : tc_log_split c = false -> nd_bins nd = tc_nb c;
  no_mm : reindex_minmax (tc_minmax c) (nd_feats nd) = Ok (nd_minmax nd);
  no_choice : exists g g', choose_features FS (tc_fsub c) g = Ok (nd_feats nd, g');
  no_failed : nd_computed nd = true -> nd_sf nd = None -> failed_split nd;
  no_elig : nd_computed nd = true -> eligible nd
}.

(** An internal node and its children. *)
Definition inner (t : tree) (id : nat) (nd : node) : Prop :=
  exists l r nl nr s v x,
    nd_left nd = Some l /\ nd_right nd = Some r /\ id < l /\ id < r /\ l <> r /\
    node_at t l nl /\ node_at t r nr /\ nd_parent nl = Some id /\ nd_parent nr = Some id /\
    nd_depth nl = S (nd_depth nd) /\ nd_depth nr = S (nd_depth nd) /\
    nd_sf nd = Some s /\ nd_sv nd = Some v /\ nd_red nd = Some x /\
    nd_idcs nl = filter (fun i => qle (cell D i s) v) (nd_idcs nd) /\
    nd_idcs nr = filter (fun i => qlt v (cell D i s)) (nd_idcs nd) /\
    xlt x (Fin 0) = true /\ xlt x (Fin (tc_min_imp c)) = true /\ eligible nd.

Record tinv (t : tree) : Prop := {
  ti_data : t_data t = D; ti_labels : t_labels t = L; ti_feats : t_feats t = FS;
  ti_root : exists r, node_at t 0 r /\ nd_idcs r = I0 /\ nd_depth r = 0 /\ nd_parent r = None;
  ti_node : forall id nd, node_at t id nd -> node_ok nd;
  ti_leaf : forall id nd, node_at t id nd -> nd_left nd = None -> nd_right nd = None /\ nd_split_done nd = false;
  ti_inner : forall id nd, node_at t id nd -> nd_left nd <> None -> inner t id nd;
  ti_parent : forall id nd, node_at t id nd -> 0 < id ->
    exists p pn, nd_parent nd = Some p /\ p < id /\ node_at t p pn /\ (nd_left pn = Some id \/ nd_right pn = Some id);
  ti_leaves : forall id, In id (t_leaves t) <-> exists nd, node_at t id nd /\ nd_left nd = None;
  ti_nodup : NoDup (t_leaves t);
  ti_perm : Permutation (flat_map (node_rows t) (t_leaves t)) I0;
  ti_splits : length (t_leaves t) = S (t_splits t) /\ length (t_nodes t) = S (2 * t_splits t);
  ti_queries : t_queries t = list_sum (map nd_queries (t_nodes t));
  ti_budget : t_budget t = option_map (fun b => (b - Z.of_nat (t_queries t))%Z) b0;
  ti_over : forall b, b0 = Some b -> t_queries t = 0 \/
     exists id nd, node_at t id nd /\ (Z.of_nat (t_queries t) - Z.of_nat (nd_queries nd) < b)%Z
}.

(** ** Constraints *)
Lemma unique_varied l : (1 <? length (unique l)) = true -> varied l.
Proof.
  intros H. apply Nat.ltb_lt in H. pose proof (unique_nodup l) as ND. pose proof (unique_in l) as IN.
  destruct (unique l) as [|x [|y u]]; cbn in H; try lia. exists x, y. repeat split.
  - apply IN. now left.
  - apply IN. right. now left.
  - intros ->. inversion ND; subst. apply H2. now left.
Qed.
Lemma varied_unique l : varied l -> (1 <? length (unique l)) = true.
Proof.
  intros [x [y [Hx [Hy NE]]]]. apply Nat.ltb_lt. apply unique_in in Hx, Hy.
  destruct (unique l) as [|a [|b u]]; cbn in *; try lia.
  destruct Hx as [->|[]], Hy as [->|[]]. congruence.
Qed.

Lemma constraints_eligible nd : node_ok nd -> nd_left nd = None -> check_constraints c nd = Ok true -> eligible nd.
Proof.
  intros N LF H. unfold check_constraints in H. destruct (no_data _ N LF) as [_ EL].
  inv_ok H. destruct r; cbn in H; [|discriminate].
  destruct (tc_min_split c <? nd_n nd) eqn:EM; cbn in H; [|discriminate].
  rewrite EL in H. cbn in H. injection H as H. apply unique_varied in H.
  split; [|split]; auto.
  - unfold below_depth. destruct (tc_max_depth c); try discriminate; auto. injection E as E. now apply Z.ltb_lt.
  - apply Nat.ltb_lt in EM. now rewrite <- (no_n _ N).
Qed.

(** ** New nodes *)
Lemma node_new_ok t p I d pr bins e nd e' :
  t_data t = D -> t_labels t = L -> t_feats t = FS ->
  node_new c t p I d pr bins e = Ok (nd, e') ->
  I <> [] -> incl I I0 -> pr = (Nq (length I) / Nq (length I0))%Qc -> within_depth c d -> (tc_log_split c = false -> bins = tc_nb c) ->
  node_ok nd /\ nd_idcs nd = I /\ nd_depth nd = d /\ nd_parent nd = p /\ nd_left nd = None /\ nd_right nd = None /\
  nd_split_done nd = false /\ nd_queries nd = 0 /\ nd_bins nd = bins /\ nd_splittable nd = None /\ nd_computed nd = false.
Proof.
  intros ED EL EF H NE IN PR WD BN. unfold node_new in H.
  apply rbind_ok in H. destruct H as [[feats gen] [EC H]].
  apply rbind_ok in H. destruct H as [[] [_ H]].
  apply rbind_ok in H. destruct H as [d' [E1 H]].
  apply rbind_ok in H. destruct H as [l' [E2 H]].
  apply rbind_ok in H. destruct H as [mm [EMM H]].
  apply rbind_ok in H. destruct H as [cs [E3 H]].
  apply ok_pair_inv in H. destruct H as [<- _]. rewrite ED in E1. rewrite EL in E2. rewrite EF in EC.
  assert (FI : incl feats FS).
  { unfold choose_features in EC. destruct (tc_fsub c) eqn:X; try discriminate.
    - injection EC as <- _. apply incl_refl.
    - eapply choice_norepl_incl; eauto.
    - destruct (k <? 0)%Z; [discriminate|]. eapply choice_norepl_incl; eauto.
    - destruct (_ <? 0)%Z; [discriminate|]. eapply choice_norepl_incl; eauto. }
  pose proof (subset_2d_map _ _ _ _ E1) as M1. pose proof (take_idx_map _ _ _ 0%Qc E2) as M2. pose proof (take_idx_len _ _ _ E2) as M3.
  split; [|repeat split].
  constructor; cbn; auto; try discriminate.
  - intros i Hi. split; [|split].
    + apply In_nth_error in Hi. destruct Hi as [k Hk]. destruct (mapM_nth' _ _ _ _ _ E2 Hk) as [b [_ E]]. apply nth_res_ok in E. apply nth_error_Some. congruence.
    + apply In_nth_error in Hi. destruct Hi as [k Hk]. destruct (mapM_nth' _ _ _ _ _ E1 Hk) as [b [_ E]]. inv_ok E. apply nth_res_ok in E0. apply nth_error_Some. congruence.
    + intros f Hf. now apply (subset_2d_range _ _ _ _ _ _ E1 Hi Hf).
  - intros _. rewrite M1. split; auto. unfold labels_at. now rewrite M2.
  - intros IC. rewrite IC in E3. unfold labels_at. now rewrite <- M2.
  - exists (e_gen e), gen. exact EC.
Qed.

(** ** Evaluating a leaf *)
Lemma node_solve_bins nd b e s bins e' : node_solve M c nd b e = Ok (s, bins, e') ->
  bins = if tc_log_split c then Nat.log2 (nd_n nd) + 1 else nd_bins nd.
Proof.
  unfold node_solve. cbv zeta. intros H. apply rbind_ok in H. destruct H as [d [_ H]]. apply rbind_ok in H. destruct H as [l [_ H]].
  destruct (tc_solver c); [| |discriminate]; apply rbind_ok in H; destruct H as [r [_ H]]; injection H as _ <- _; reflexivity.
Qed.
Lemma best_split_ok nd budget e nd1 o e1 :
  node_ok nd -> nd_left nd = None -> (nd_computed nd = true \/ check_constraints c nd = Ok true) ->
  calculate_best_split M c nd budget e = Ok (nd1, o, e1) ->
  (nd_computed nd = true -> nd1 = nd /\ e1 = e) /\ node_ok nd1 /\ same_shape nd nd1 /\ nd_computed nd1 = true /\ o = nd_red nd1 /\
  nd_splittable nd1 = nd_splittable nd.
Proof.
  intros N LF CK H. unfold calculate_best_split in H. destruct (nd_computed nd) eqn:C.
  { injection H as <- <- <-. split; auto. split; auto. split; [apply same_shape_refl|]. auto. }
  split; [discriminate|]. apply rbind_ok in H. destruct H as [[[s bins] e'] [ES H]].
  assert (EG : eligible nd) by (destruct CK as [CK|CK]; [discriminate|apply constraints_eligible; auto]).
  destruct (no_fresh _ N C) as [Q0 S0]. pose proof (no_nosplit _ N S0) as R0. destruct (no_data _ N LF) as [ND NL].
  destruct s as [f v red q|q].
  - apply rbind_ok in H. destruct H as [sf [EF H]]. apply nth_res_ok in EF. injection H as <- <- <-.
    split; [|split; [repeat constructor|auto]].
    destruct N. constructor; auto; cbn; try discriminate.
    2:{ intros LG. rewrite (node_solve_bins _ _ _ _ _ _ ES), LG. auto. }
    intros s Es. injection Es as <-. exists f, v, (xmul red (Fin (nd_prop nd))). repeat split; auto.
    exists nd, budget, e, red, q, bins, e'. repeat split; auto.
  - injection H as <- <- <-. split; [|split; [repeat constructor|cbn; auto]].
    destruct N. constructor; auto; cbn; try discriminate. { intros s; rewrite S0; discriminate. } { intros LG. rewrite (node_solve_bins _ _ _ _ _ _ ES), LG. auto. }
    intros _ _. exists nd, budget, e, q, bins, e'. repeat split; auto.
Qed.

Lemma check_splittable_ok t nd e b nd1 e1 : node_ok nd -> nd_left nd = None -> nd_computed nd = true ->
  check_splittable M c t nd e = Ok (b, nd1, e1) -> nd1 = nd /\ e1 = e.
Proof.
  intros N LF C H. unfold check_splittable in H. apply rbind_ok in H. destruct H as [ok [_ H]].
  destruct ok; cbn [negb] in H; [|injection H as _ <- <-; auto].
  apply rbind_ok in H. destruct H as [[[n1 o1] e2] [E1 H]]. destruct (best_split_ok _ _ _ _ _ _ N LF (or_introl C) E1) as [X _]. destruct (X C) as [-> ->].
  destruct o1; [|injection H as _ <- <-; auto].
  apply rbind_ok in H. destruct H as [[[n2 o2] e3] [E2 H]]. destruct (best_split_ok _ _ _ _ _ _ N LF (or_introl C) E2) as [Y _]. destruct (Y C) as [-> ->].
  apply rbind_ok in H. destruct H as [red [_ H]]. injection H as _ <- <-. auto.
Qed.

Lemma solved_frame nd nd' f s v x : same_frame nd nd' -> nd_queries nd' = nd_queries nd -> solved_split nd f s v x -> solved_split nd' f s v x.
Proof.
  intros F Q [nd0 [budget [e [r [q [bins [e' [H1 [H2 [H3 [F0 [H5 [H6 H7]]]]]]]]]]]]].
  exists nd0, budget, e, r, q, bins, e'. rewrite (sf_feats _ _ F), (sf_idcs _ _ F), (sf_prop _ _ F), Q. split; auto. split; auto. split; auto.
  split; auto. destruct F, F0. constructor; congruence.
Qed.
Lemma failed_frame nd nd' : same_frame nd nd' -> nd_queries nd' = nd_queries nd -> failed_split nd -> failed_split nd'.
Proof.
  intros F Q [nd0 [budget [e [q [bins [e' [H1 [H2 [H3 [F0 [H5 H6]]]]]]]]]]].
  exists nd0, budget, e, q, bins, e'. rewrite (sf_feats _ _ F), (sf_idcs _ _ F), Q. split; auto. split; auto. split; auto.
  split; auto. destruct F, F0. constructor; congruence.
Qed.
Lemma splittable_ok nd b : node_ok nd -> node_ok (with_splittable nd b).
Proof.
  intros []. constructor; auto.
  2:{ intros C S. apply (failed_frame nd); auto. constructor; reflexivity. }
  intros s E. destruct (no_solved0 s E) as [f [v [x [H1 [H2 [H3 H4]]]]]]. exists f, v, x. repeat split; auto.
  apply (solved_frame nd); auto. constructor; reflexivity.
Qed.
Lemma splittable_shape nd b : same_shape nd (with_splittable nd b).
Proof. repeat constructor. Qed.

Lemma node_at_put t id nd' id' nd0 : node_at t id nd0 ->
  forall x, node_at (put_node t id nd') id' x <-> (id' = id /\ x = nd') \/ (id' <> id /\ node_at t id' x).
Proof.
  unfold node_at, put_node. cbn. intros E x. rewrite set_nth_nth, E. destruct (Nat.eqb_spec id' id) as [->|NE]; split; intros H.
  - injection H as <-. auto.
  - destruct H as [[_ ->]|[X _]]; congruence.
  - auto.
  - destruct H as [[X _]|[_ H]]; congruence.
Qed.

Lemma node_rows_put t id nd nd' id' : node_at t id nd -> nd_idcs nd' = nd_idcs nd -> node_rows (put_node t id nd') id' = node_rows t id'.
Proof.
  unfold node_at, node_rows, put_node. cbn. intros E EI. rewrite set_nth_nth, E. destruct (Nat.eqb_spec id' id) as [->|NE]; auto.
  now rewrite EI, E.
Qed.

Lemma put_tinv t id nd nd' dq :
  tinv t -> node_at t id nd -> nd_left nd = None -> same_shape nd nd' -> node_ok nd' ->
  nd_queries nd' = nd_queries nd + dq ->
  (forall b, b0 = Some b -> dq = 0 \/ (nd_queries nd = 0 /\ (Z.of_nat (t_queries t) < b)%Z)) ->
  tinv (pay (put_node t id nd') dq).
Proof.
  intros T A LF S N Q OV. pose proof (node_at_put t id nd' ) as NP.
  assert (AT : forall id' x, node_at (pay (put_node t id nd') dq) id' x <-> (id' = id /\ x = nd') \/ (id' <> id /\ node_at t id' x))
    by (intros id' x; apply (NP id' nd A x)).
  destruct S as [FR S2 S3 S4 S5 S6 S7 S8 S9].
  assert (KEEP : forall id' x, node_at t id' x -> exists x', node_at (pay (put_node t id nd') dq) id' x' /\ same_frame x x' /\ nd_left x' = nd_left x /\ nd_right x' = nd_right x).
  { intros id' x H. destruct (Nat.eq_dec id' id) as [->|NE].
    - assert (x = nd) by (unfold node_at in *; congruence). subst x. exists nd'. split; [apply AT; auto|]. auto.
    - exists x. split; [apply AT; auto|]. split; auto using same_frame_refl. }
  destruct T as [T1 T2 T3 T4 T5 T6 T7 T8 T9 T10 T11 T12 T13 T14 T15].
  constructor; cbn [pay put_node set_nodes t_data t_labels t_feats t_leaves t_splits t_nodes t_queries t_budget]; auto.
  - destruct T4 as [r [R1 [R2 [R3 R4]]]]. destruct (KEEP _ _ R1) as [r' [R1' [[] _]]]. exists r'. split; auto. repeat split; congruence.
  - intros id' x H. apply AT in H. destruct H as [[_ ->]|[_ H]]; eauto.
  - intros id' x H E. apply AT in H. destruct H as [[_ ->]|[_ H]]; [|eauto]. rewrite S3, S4. rewrite S2 in E. eauto.
  - intros id' x H E. apply AT in H. destruct H as [[_ ->]|[_ H]]; [congruence|].
    destruct (T7 _ _ H E) as [l [r [nl [nr [s [v [xx [I1 [I2 [I3 [I4 [I4' [I5 [I6 [I7 [I8 [I9 [I10 [I11 [I12 [I13 [I14 [I15 [I16 [I17 I18]]]]]]]]]]]]]]]]]]]]]]]]].
    destruct (KEEP _ _ I5) as [nl' [K1 [[] _]]]. destruct (KEEP _ _ I6) as [nr' [K2 [[] _]]].
    exists l, r, nl', nr', s, v, xx. repeat split; try congruence; apply I18.
  - intros id' x H P. apply AT in H.
    assert (Z : exists y, node_at t id' y /\ nd_parent x = nd_parent y).
    { destruct H as [[-> ->]|[_ H]]; [exists nd; split; auto; apply FR|exists x; auto]. }
    destruct Z as [y [Hy Ey]]. destruct (T8 _ _ Hy P) as [p [pn [P1 [P2 [P3 P4]]]]]. destruct (KEEP _ _ P3) as [pn' [K1 [_ [K2 K3]]]].
    exists p, pn'. rewrite K2, K3. repeat split; try congruence; auto.
  - intros id'. rewrite T9. split; intros [x [H E]].
    + destruct (KEEP _ _ H) as [x' [H' [_ [E' _]]]]. exists x'. split; auto. congruence.
    + apply AT in H. destruct H as [[-> ->]|[_ H]]; eauto.
  - rewrite <- T11. rewrite (flat_map_ext _ (node_rows t)); auto. intros id'. apply (node_rows_put t id nd nd' id' A). apply FR.
  - destruct T12 as [E1 E2]. split; auto. now rewrite set_nth_length.
  - pose proof (list_sum_set_nth nd_queries (t_nodes t) id nd nd' A) as LS. rewrite T13. lia.
  - rewrite T14. destruct b0; cbn; auto. f_equal. lia.
  - intros b Eb. destruct (OV b Eb) as [->|[Q1 Q2]].
    + rewrite Nat.add_0_r in *. destruct (T15 b Eb) as [Z|[id' [x [H X]]]]; auto. right.
      destruct (Nat.eq_dec id' id) as [->|NE].
      * exists id, nd'. split; [apply AT; auto|]. assert (x = nd) by (unfold node_at in *; congruence). subst x. lia.
      * exists id', x. split; [apply AT; auto|auto].
    + right. exists id, nd'. split; [apply AT; auto|]. lia.
Qed.

Lemma pay_0 t : pay t 0 = t.
Proof. destruct t as [? ? ? ? ? ? ? [b|] q ? ?]; unfold pay; cbn; repeat f_equal; lia. Qed.

(** ** The scan over the leaves *)
Definition best_ok (t : tree) (b : option (nat * nat * xn)) : Prop :=
  match b with
  | None => True
  | Some (pos, id, x) => nth_error (t_leaves t) pos = Some id /\
      exists nd, node_at t id nd /\ nd_left nd = None /\ check_constraints c nd = Ok true /\ nd_red nd = Some x /\ nd_splittable nd = Some true
  end.

Record scan_ok (t0 : tree) (s : scan) : Prop := {
  so_tree : tinv (sc_tree s);
  so_leaves : t_leaves (sc_tree s) = t_leaves t0;
  so_splits : t_splits (sc_tree s) = t_splits t0;
  so_n : t_n (sc_tree s) = t_n t0;
  so_best : best_ok (sc_tree s) (sc_best s)
}.

Lemma best_put t id nd nd' b dq : tinv t -> node_at t id nd -> nd_left nd = None -> same_shape nd nd' ->
  (nd_computed nd = true -> nd_red nd' = nd_red nd) ->
  (forall b, nd_splittable nd = Some b -> check_constraints c nd = Ok true -> nd_splittable nd' = Some b) ->
  best_ok t b -> best_ok (pay (put_node t id nd') dq) b.
Proof.
  intros T A LF S C SP. destruct b as [[[pos id'] x]|]; auto. cbn [best_ok]. intros [E [n [H [H1 [H2 [H3 H4]]]]]]. split; auto.
  destruct (Nat.eq_dec id' id) as [->|NE].
  - assert (n = nd) by (unfold node_at in *; congruence). subst n. exists nd'. split; [|split; [|split; [|split]]].
    + apply (node_at_put t id nd' id nd A). auto.
    + rewrite (ss_left _ _ S). auto.
    + now rewrite (constraints_shape c _ _ S).
    + rewrite C; auto. destruct (nd_computed nd) eqn:Z; auto. pose proof (ti_node _ T _ _ A) as N. destruct (no_fresh _ N Z) as [_ Z2].
      rewrite (no_nosplit _ N Z2) in H3. discriminate.
    + apply SP; auto.
  - exists n. split; auto. apply (node_at_put t id nd' id' nd A). auto.
Qed.

Lemma scan_leaf_ok t0 s pos id s' :
  scan_ok t0 s -> nth_error (t_leaves t0) pos = Some id -> scan_leaf M c s (pos, id) = Ok s' -> scan_ok t0 s'.
Proof.
  intros [T EL ES EN B] P H. unfold scan_leaf in H. destruct (sc_stop s); [injection H as <-; constructor; auto|].
  apply rbind_ok in H. destruct H as [nd [A H]]. apply nth_res_ok in A. change (node_at (sc_tree s) id nd) in A.
  assert (LF : nd_left nd = None).
  { rewrite <- EL in P. apply nth_error_In in P. apply (ti_leaves _ T) in P. destruct P as [x [H1 H2]]. unfold node_at in *. congruence. }
  pose proof (ti_node _ T _ _ A) as N.
  apply rbind_ok in H. destruct H as [ok [CC H]]. destruct ok; cbn [negb] in H.
  2:{ injection H as <-. assert (K : tinv (pay (put_node (sc_tree s) id (with_splittable nd false)) 0)).
      { apply put_tinv with (nd := nd); auto using splittable_ok, splittable_shape; try (cbn; lia). }
      rewrite pay_0 in K. constructor; auto. cbn [sc_tree sc_best].
      rewrite <- (pay_0 (put_node _ _ _)). apply best_put with (nd := nd); auto using splittable_shape. intros b _ C2. congruence. }
  destruct (match t_budget (sc_tree s) with None => false | Some b => (b <=? 0)%Z end) eqn:BU; [injection H as <-; constructor; auto|].
  apply rbind_ok in H. destruct H as [[[nd1 red] e1] [EB H]].
  destruct (best_split_ok _ _ _ _ _ _ N LF (or_intror CC) EB) as [K1 [K2 [K3 [K4 [K5 K6]]]]].
  set (t2 := if nd_computed nd then put_node (sc_tree s) id nd1 else pay (put_node (sc_tree s) id nd1) (nd_queries nd1)) in *.
  assert (T2 : tinv t2 /\ t_leaves t2 = t_leaves t0 /\ t_splits t2 = t_splits t0 /\ t_n t2 = t_n t0 /\ best_ok t2 (sc_best s) /\ node_at t2 id nd1).
  { unfold t2. destruct (nd_computed nd) eqn:C.
    - destruct (K1 eq_refl) as [-> _]. rewrite <- (pay_0 (put_node _ _ _)). ands; auto.
      + apply put_tinv with (nd := nd); auto.
      + apply best_put with (nd := nd); auto.
      + apply (node_at_put (sc_tree s) id nd id nd A). auto.
    - destruct (no_fresh _ N C) as [Q0 _]. ands; auto.
      + apply put_tinv with (nd := nd); auto; [now rewrite Q0|]. intros b Eb. right. split; auto.
        rewrite (ti_budget _ T), Eb in BU. cbn in BU. apply Z.leb_gt in BU. lia.
      + apply best_put with (nd := nd); auto; [congruence|]. intros b Sb _. now rewrite K6.
      + apply (node_at_put (sc_tree s) id nd1 id nd A). auto. }
  destruct T2 as [T2 [L2 [S2 [N2 [B2 A2]]]]].
  assert (LF1 : nd_left nd1 = None) by (rewrite (ss_left _ _ K3); auto).
  apply rbind_ok in H. destruct H as [[[spl nd3] e3] [EQ H]]. injection H as <-.
  assert (K3' : same_shape nd1 nd3 /\ node_ok nd3 /\ nd_queries nd3 = nd_queries nd1 /\ nd_red nd3 = nd_red nd1 /\ nd_splittable nd3 = Some spl /\
                (forall b, nd_splittable nd1 = Some b -> nd_splittable nd3 = Some b)).
  { destruct (nd_splittable nd1) as [b|] eqn:SP.
    - injection EQ as <- <- <-. ands; auto using same_shape_refl; intros; congruence.
    - apply rbind_ok in EQ. destruct EQ as [[[b nd2] e2] [EC EQ]]. destruct (check_splittable_ok _ _ _ _ _ _ K2 LF1 K4 EC) as [-> ->].
      injection EQ as <- <- <-. ands; auto using splittable_ok, splittable_shape; intros; discriminate. }
  destruct K3' as [J1 [J2 [J3 [J4 [J5 J6]]]]].
  assert (T3 : tinv (pay (put_node t2 id nd3) 0)) by (apply put_tinv with (nd := nd1); auto; lia).
  assert (B3 : best_ok (pay (put_node t2 id nd3) 0) (sc_best s)) by (apply best_put with (nd := nd1); auto).
  rewrite pay_0 in T3, B3. constructor; auto. cbn [sc_tree sc_best].
  destruct red as [x|]; auto. destruct (xlt x _ && spl) eqn:X; auto.
  apply andb_true_iff in X. destruct X as [_ ->]. cbn [best_ok]. split; [cbn; rewrite L2; auto|]. exists nd3. ands.
  - apply (node_at_put t2 id nd3 id nd1 A2). auto.
  - rewrite (ss_left _ _ J1). auto.
  - rewrite (constraints_shape c nd1 nd3 J1), (constraints_shape c nd nd1 K3). auto.
  - congruence.
  - auto.
Qed.

Lemma scan_ok_all t e s : tinv t ->
  foldM (scan_leaf M c) {| sc_tree := t; sc_env := e; sc_best := None; sc_stop := false |}
        (combine (seq 0 (length (t_leaves t))) (t_leaves t)) = Ok s -> scan_ok t s.
Proof.
  intros T. apply foldM_inv; [constructor; cbn; auto|].
  intros [pos id] s1 s2 I S H. apply (scan_leaf_ok t s1 pos id); auto.
  apply In_nth_error in I. destruct I as [k I]. rewrite combine_nth_error in I.
  destruct (nth_error (seq 0 (length (t_leaves t))) k) eqn:E1; [|discriminate]. destruct (nth_error (t_leaves t) k) eqn:E2; [|discriminate].
  injection I as <- <-. rewrite nth_error_nth' with (d := 0) in E1 by (apply nth_error_Some; congruence).
  assert (k < length (t_leaves t)) by (apply nth_error_Some; congruence). rewrite seq_nth in E1 by auto. injection E1 as <-. auto.
Qed.

(** ** Splitting a leaf *)
Lemma children_ok nd k : node_ok nd -> node_ok (with_children nd k (S k)).
Proof.
  intros []. constructor; auto; cbn; try discriminate.
  2:{ intros C S. apply (failed_frame nd); auto. constructor; reflexivity. }
  intros s E. destruct (no_solved0 s E) as [f [v [x [H1 [H2 [H3 H4]]]]]]. exists f, v, x. repeat split; auto.
  apply (solved_frame nd); auto. constructor; reflexivity.
Qed.

Lemma set_nth_app_nth {A} id (a : A) l l2 j : id < length l ->
  nth_error (set_nth id a l ++ l2) j = if j =? id then Some a else if j <? length l then nth_error l j else nth_error l2 (j - length l).
Proof.
  intros H. destruct (Nat.ltb_spec j (length l)) as [LT|GE].
  - rewrite nth_error_app1 by now rewrite set_nth_length. rewrite set_nth_nth. destruct (j =? id); auto.
    destruct (nth_error l id) eqn:E; auto. apply nth_error_None in E. lia.
  - rewrite nth_error_app2 by now rewrite set_nth_length. rewrite set_nth_length. destruct (Nat.eqb_spec j id); auto. lia.
Qed.

Lemma flat_map_perm {A B} (g : A -> list B) l1 l2 : Permutation l1 l2 -> Permutation (flat_map g l1) (flat_map g l2).
Proof. apply Permutation_flat_map. Qed.

Lemma filter_split_le (g : nat -> Qc) v I : Permutation I (filter (fun i => qle (g i) v) I ++ filter (fun i => qlt v (g i)) I).
Proof.
  eapply Permutation_trans; [apply (filter_split_perm (fun i => qle (g i) v))|]. apply Permutation_app_head.
  rewrite (filter_ext (fun a => negb (qle (g a) v)) (fun i => qlt v (g i))); [apply Permutation_refl|]. intros i. now rewrite qlt_negb_qle.
Qed.

Lemma grow_tinv t pos id nd nl nr s v x t' :
  tinv t -> nth_error (t_leaves t) pos = Some id -> node_at t id nd -> nd_left nd = None ->
  eligible nd -> nd_sf nd = Some s -> nd_sv nd = Some v -> nd_red nd = Some x ->
  xlt x (Fin 0) = true -> xlt x (Fin (tc_min_imp c)) = true ->
  node_ok nl -> node_ok nr -> nd_left nl = None -> nd_left nr = None -> nd_right nl = None -> nd_right nr = None ->
  nd_split_done nl = false -> nd_split_done nr = false -> nd_queries nl = 0 -> nd_queries nr = 0 ->
  nd_parent nl = Some id -> nd_parent nr = Some id -> nd_depth nl = S (nd_depth nd) -> nd_depth nr = S (nd_depth nd) ->
  nd_idcs nl = filter (fun i => qle (cell D i s) v) (nd_idcs nd) ->
  nd_idcs nr = filter (fun i => qlt v (cell D i s)) (nd_idcs nd) ->
  let k := length (t_nodes t) in
  t_data t' = t_data t -> t_labels t' = t_labels t -> t_feats t' = t_feats t ->
  t_nodes t' = set_nth id (with_children nd k (S k)) (t_nodes t) ++ [nl; nr] ->
  t_leaves t' = remove_nth pos (t_leaves t) ++ [k; S k] ->
  t_splits t' = S (t_splits t) -> t_queries t' = t_queries t -> t_budget t' = t_budget t ->
  tinv t'.
Proof.
  intros T P A LF EG E1 E2 E3 X1 X2 N1 N2 L1 L2 R1 R2 D1 D2 Q1 Q2 P1 P2 DP1 DP2 I1 I2 k TD TL TF TN TV TS TQ TB.
  assert (IDK : id < k) by (apply nth_error_Some; unfold node_at in A; congruence).
  set (nd' := with_children nd k (S k)) in *.
  assert (AT : forall j y, node_at t' j y <-> (j = id /\ y = nd') \/ (j <> id /\ node_at t j y) \/ (j = k /\ y = nl) \/ (j = S k /\ y = nr)).
  { intros j y. unfold node_at. rewrite TN, set_nth_app_nth by auto. fold k.
    destruct (Nat.eqb_spec j id) as [->|NE].
    - split; [intros H; injection H as <-; auto|]. intros [[_ ->]|[[X _]|[[X _]|[X _]]]]; try congruence; try lia.
    - destruct (Nat.ltb_spec j k) as [LT|GE].
      + split; [tauto|]. intros [[X _]|[[_ X]|[[X _]|[X _]]]]; try congruence; try lia.
      + assert (NT : nth_error (t_nodes t) j = None) by now apply nth_error_None.
        split.
        * intros H. destruct (j - k) as [|[|d]] eqn:EJ; cbn in H.
          -- injection H as <-. right. right. left. split; auto. lia.
          -- injection H as <-. right. right. right. split; auto. lia.
          -- destruct d; discriminate.
        * intros [[X _]|[[_ X]|[[-> ->]|[-> ->]]]]; try congruence; [now rewrite Nat.sub_diag|]. now replace (S k - k) with 1 by lia. }
  assert (FR : same_frame nd nd') by (constructor; reflexivity).
  assert (KEEP : forall j y, node_at t j y -> exists y', node_at t' j y' /\ same_frame y y' /\ (j <> id -> y' = y)).
  { intros j y H. destruct (Nat.eq_dec j id) as [->|NE].
    - assert (y = nd) by (unfold node_at in *; congruence). subst y. exists nd'. split; [apply AT; auto|]. split; auto. congruence.
    - exists y. split; [apply AT; auto|]. split; auto using same_frame_refl. }
  pose proof T as TT. destruct TT as [T1 T2 T3 T4 T5 T6 T7 T8 T9 T10 T11 T12 T13 T14 T15].
  assert (NK : forall j, In j (t_leaves t) -> j < k).
  { intros j J. apply T9 in J. destruct J as [y [J _]]. apply nth_error_Some. unfold node_at in J. congruence. }
  pose proof (remove_nth_perm pos (t_leaves t) id P) as RP.
  assert (RND : NoDup (id :: remove_nth pos (t_leaves t))) by (eapply Permutation_NoDup; eauto).
  constructor; try congruence.
  - destruct T4 as [r [H1 [H2 [H3 H4]]]]. destruct (KEEP _ _ H1) as [r' [H1' [[] _]]]. exists r'. split; auto. repeat split; congruence.
  - intros j y H. apply AT in H. destruct H as [[_ ->]|[[_ H]|[[_ ->]|[_ ->]]]]; eauto. apply children_ok; eauto.
  - intros j y H E. apply AT in H. destruct H as [[_ ->]|[[_ H]|[[_ ->]|[_ ->]]]]; eauto. discriminate.
  - intros j y H E. apply AT in H. destruct H as [[-> ->]|[[NE H]|[[_ ->]|[_ ->]]]]; try congruence.
    + exists k, (S k), nl, nr, s, v, x. ands; auto; try lia; apply AT; auto.
    + destruct (T7 _ _ H E) as [l [r [xl [xr [s' [v' [xx [J1 [J2 [J3 [J4 [J4' [J5 [J6 [J7 [J8 [J9 [J10 [J11 [J12 [J13 [J14 [J15 [J16 [J17 J18]]]]]]]]]]]]]]]]]]]]]]]]].
      destruct (KEEP _ _ J5) as [nl' [K1 [[] _]]]. destruct (KEEP _ _ J6) as [nr' [K2 [[] _]]].
      exists l, r, nl', nr', s', v', xx. ands; auto; congruence.
  - intros j y H PO. apply AT in H. destruct H as [[-> ->]|[[NE H]|[[-> ->]|[-> ->]]]].
    + destruct (T8 _ _ A PO) as [p [pn [G1 [G2 [G3 G4]]]]]. exists p, pn. ands; auto. apply AT. right. left. split; auto. lia.
    + destruct (T8 _ _ H PO) as [p [pn [G1 [G2 [G3 G4]]]]]. destruct (Nat.eq_dec p id) as [->|NP].
      * assert (pn = nd) by (unfold node_at in *; congruence). subst pn. destruct (T6 _ _ A LF). destruct G4; congruence.
      * exists p, pn. ands; auto. apply AT. auto.
    + exists id, nd'. ands; auto. apply AT; auto.
    + exists id, nd'. ands; auto. apply AT; auto.
  - intros j. rewrite TV, in_app_iff. split.
    + intros [J|[<-|[<-|[]]]].
      * assert (J' : In j (t_leaves t)) by (eapply remove_nth_In; eauto). apply T9 in J'. destruct J' as [y [H E]]. exists y. split; auto. apply AT.
        right. left. split; auto. inversion RND; subst. intros ->. contradiction.
      * exists nl. split; auto. apply AT. auto.
      * exists nr. split; auto. apply AT. auto.
    + intros [y [H E]]. apply AT in H. destruct H as [[-> ->]|[[NE H]|[[-> ->]|[-> ->]]]]; try discriminate.
      * left. assert (J' : In j (t_leaves t)) by (apply T9; eauto). eapply Permutation_in in J'; [|exact RP]. destruct J'; congruence.
      * right. now left.
      * right. right. now left.
  - rewrite TV. apply (Permutation_NoDup (l := [k; S k] ++ remove_nth pos (t_leaves t))); [apply Permutation_app_comm|].
    inversion RND; subst. cbn. constructor; [|constructor; auto].
    + intros [X|X]; [lia|]. apply remove_nth_In in X. apply NK in X. lia.
    + intros X. apply remove_nth_In in X. apply NK in X. lia.
  - rewrite TV. eapply Permutation_trans; [|exact T11].
    eapply Permutation_trans; [|apply Permutation_sym, (flat_map_perm _ _ _ RP)].
    assert (RW : forall j, j <> id -> j < k -> node_rows t' j = node_rows t j).
    { intros j NE LT. unfold node_rows. rewrite TN, set_nth_app_nth by auto. fold k. destruct (Nat.eqb_spec j id); [contradiction|].
      destruct (Nat.ltb_spec j k); [auto|lia]. }
    assert (RE : flat_map (node_rows t') (remove_nth pos (t_leaves t)) = flat_map (node_rows t) (remove_nth pos (t_leaves t))).
    { assert (G : forall l, (forall j, In j l -> j <> id /\ j < k) -> flat_map (node_rows t') l = flat_map (node_rows t) l).
      { induction l as [|j l IH]; intros G; cbn; auto. rewrite IH by (intros; apply G; now right). rewrite RW; auto; apply G; now left. }
      apply G. intros j J. split; [|apply NK; eapply remove_nth_In; eauto]. inversion RND; subst. intros ->. contradiction. }
    rewrite flat_map_app, RE. cbn [flat_map]. rewrite app_nil_r.
    assert (RK : node_rows t' k = nd_idcs nl /\ node_rows t' (S k) = nd_idcs nr).
    { unfold node_rows. assert (B1 : node_at t' k nl) by (apply AT; auto). assert (B2 : node_at t' (S k) nr) by (apply AT; auto).
      unfold node_at in *. now rewrite B1, B2. }
    destruct RK as [-> ->]. rewrite I1, I2.
    assert (RI : node_rows t id = nd_idcs nd) by (unfold node_rows; unfold node_at in A; now rewrite A). rewrite RI.
    eapply Permutation_trans; [apply Permutation_app_comm|]. apply Permutation_app_tail. apply Permutation_sym, filter_split_le.
  - destruct T12 as [C1 C2]. rewrite TV, TN, TS, !app_length, set_nth_length. cbn [length].
    pose proof (remove_nth_length pos (t_leaves t)) as RL. assert (pos < length (t_leaves t)) by (apply nth_error_Some; congruence). split; lia.
  - rewrite TQ, TN, map_app, list_sum_app, T13. pose proof (list_sum_set_nth nd_queries (t_nodes t) id nd nd' A) as LS.
    cbn [map]. rewrite !list_sum_cons, Q1, Q2. cbn [nd' with_children nd_queries] in LS. cbn [list_sum fold_right]. lia.
  - rewrite TB, TQ. exact T14.
  - intros b Eb. rewrite TQ. destruct (T15 b Eb) as [Z|[j [y [H X]]]]; auto. right.
    destruct (Nat.eq_dec j id) as [->|NE].
    + exists id, nd'. split; [apply AT; auto|]. assert (y = nd) by (unfold node_at in *; congruence). subst y. exact X.
    + exists j, y. split; [apply AT; auto|auto].
Qed.

Lemma col_of_node nd f s : nth_error (nd_feats nd) f = Some s ->
  forall cl, col (map (fun i => map (cell D i) (nd_feats nd)) (nd_idcs nd)) f = Ok cl -> cl = map (fun i => cell D i s) (nd_idcs nd).
Proof.
  intros F cl H. unfold col in H. rewrite mapM_map in H. eapply mapM_ok_map; [|exact H]. intros i b _ E. apply nth_res_ok in E.
  rewrite nth_error_map, F in E. cbn in E. now injection E.
Qed.

Lemma fit_step_split t pos id nd x e t' e' :
  tinv t -> nth_error (t_leaves t) pos = Some id -> node_at t id nd -> nd_left nd = None ->
  check_constraints c nd = Ok true -> nd_red nd = Some x -> xlt x (Fin (tc_min_imp c)) = true ->
  node_split M c t id e = Ok (t', e') ->
  exists nl nr nd', let k := length (t_nodes t) in
    t' = set_nodes t (set_nth id (with_children nd k (S k)) (t_nodes t) ++ [nl; nr]) /\
    node_at t' id nd' /\ nd' = with_children nd k (S k) /\
    tinv (set_leaves (inc_splits t') (remove_nth pos (t_leaves t) ++ [k; S k])) /\
    nd_splittable nl = None /\ nd_splittable nr = None /\ nd_computed nl = false /\ nd_computed nr = false.
Proof.
  intros T P A LF CC RX XM H. pose proof (ti_node _ T _ _ A) as N. pose proof (constraints_eligible _ N LF CC) as EG.
  unfold node_split in H. unfold node_at in A. apply nth_res_ok in A. rewrite A in H. cbn [rbind] in H. apply nth_res_ok in A.
  change (node_at t id nd) in A. destruct (ti_leaf _ T _ _ A LF) as [RN SD]. rewrite SD in H. cbn [negb guard rbind] in H.
  destruct (nd_sf nd) as [s|] eqn:SF; [|rewrite (no_nosplit _ N SF) in RX; discriminate]. cbn [rbind] in H.
  destruct (no_solved _ N s SF) as [f [v [x' [PF [SV [RX' SS]]]]]]. rewrite RX in RX'. injection RX' as <-. rewrite RX in H.
  apply rbind_ok in H. destruct H as [[] [G1 H]]. apply guard_ok in G1. destruct (no_data _ N LF) as [ND NL].
  rewrite ND, NL, PF, SV in H. cbn [opt_res rbind] in H. apply rbind_ok in H. destruct H as [cl [EC H]].
  destruct SS as [_ [_ [_ [_ [_ [_ [_ [_ [_ [_ [_ [NF _]]]]]]]]]]]].
  pose proof (col_of_node nd f s NF cl EC) as ->.
  destruct (split_filter v (fun i => cell D i s) (nd_idcs nd)) as [F1 F2]. rewrite F1, F2 in H.
  set (LI := filter (fun i => qle (cell D i s) v) (nd_idcs nd)) in *. set (RI := filter (fun i => qlt v (cell D i s)) (nd_idcs nd)) in *.
  destruct ((length LI =? 0) || (length RI =? 0)) eqn:Z; [discriminate|]. apply orb_false_iff in Z. destruct Z as [Z1 Z2].
  apply rbind_ok in H. destruct H as [[nl e1] [C1 H]]. apply rbind_ok in H. destruct H as [[nr e2] [C2 H]]. cbn [fst snd] in *.
  apply ok_pair_inv in H. destruct H as [<- <-]. unfold create_child in C1, C2.
  assert (NZ : 0 < length (nd_idcs nd)) by (pose proof (no_ne _ N); destruct (nd_idcs nd); [contradiction|cbn; lia]).
  assert (LL : length (labels_at L (nd_idcs nd)) = length (nd_idcs nd)) by apply map_length. rewrite LL in *.
  assert (PR : forall J : list nat, (nd_prop nd * (Nq (length J) / Nq (length (nd_idcs nd))) = Nq (length J) / Nq (length I0))%Qc).
  { intros J. rewrite (no_prop _ N). unfold Qcdiv. pose proof (Nq_neq0 _ NZ) as NN. 
    transitivity (Nq (length J) * / Nq (length I0) * (Nq (length (nd_idcs nd)) * / Nq (length (nd_idcs nd))))%Qc; [ring|].
    rewrite Qcmult_inv_r by auto. ring. }
  assert (WD : within_depth c (S (nd_depth nd))).
  { destruct EG as [BD _]. unfold below_depth, within_depth in *. destruct (tc_max_depth c); auto. lia. }
  destruct (node_new_ok t (Some id) LI _ _ _ _ _ _ (ti_data _ T) (ti_labels _ T) (ti_feats _ T) C1) as [U1 [U2 [U3 [U4 [U5 [U6 [U7 [U8 [_ [U9 U10]]]]]]]]]]; auto.
  { intros Y. rewrite Y in Z1. discriminate. }
  { intros i I. apply (no_rows _ N). unfold LI in I. now apply filter_In in I. }
  { apply (no_bins _ N). }
  destruct (node_new_ok t (Some id) RI _ _ _ _ _ _ (ti_data _ T) (ti_labels _ T) (ti_feats _ T) C2) as [V1 [V2 [V3 [V4 [V5 [V6 [V7 [V8 [_ [V9 V10]]]]]]]]]]; auto.
  { intros Y. rewrite Y in Z2. discriminate. }
  { intros i I. apply (no_rows _ N). unfold RI in I. now apply filter_In in I. }
  { apply (no_bins _ N). }
  assert (IDK : id < length (t_nodes t)) by (apply nth_error_Some; unfold node_at in A; congruence).
  exists nl, nr, (with_children nd (length (t_nodes t)) (S (length (t_nodes t)))). cbv zeta. ands; auto.
  - unfold node_at. cbn. rewrite set_nth_app_nth by auto. now rewrite Nat.eqb_refl.
  - apply (grow_tinv t pos id nd nl nr s v x); auto.
Qed.

Lemma fit_step_tinv t e t' e' b : tinv t -> fit_step M c t e = Ok (t', e', b) ->
  tinv t' /\ get_depth t' = Ok (t_depth t') /\
  (b = true -> t_splits t' = S (t_splits t)) /\ (b = false -> t_splits t' = t_splits t).
Proof.
  intros T H. unfold fit_step in H. apply rbind_ok in H. destruct H as [s [ES H]].
  destruct (scan_ok_all _ _ _ T ES) as [T1 L1 S1 NN1 B1].
  apply rbind_ok in H. destruct H as [[[t3 e3] cont] [EC H]].
  apply rbind_ok in H. destruct H as [d [ED H]]. injection H as <- <- <-.
  assert (K : tinv t3 /\ (cont = true -> t_splits t3 = S (t_splits t)) /\ (cont = false -> t_splits t3 = t_splits t)).
  { destruct (sc_best s) as [[[pos id] x]|]; [|injection EC as <- <- <-; split; auto; split; auto; discriminate].
    destruct (xlt x (Fin (tc_min_imp c))) eqn:X; [|injection EC as <- <- <-; split; auto; split; auto; discriminate].
    apply rbind_ok in EC. destruct EC as [[t2 e2] [E2 EC]]. cbn [fst snd] in EC.
    destruct B1 as [P [nd [A [LF [CC [RX SP]]]]]].
    destruct (fit_step_split _ _ _ _ _ _ _ _ T1 P A LF CC RX X E2) as [nl [nr [nd' [TE [A' [EN' [TI NW]]]]]]].
    apply rbind_ok in EC. destruct EC as [nd2 [EN EC]]. apply nth_res_ok in EN. change (node_at t2 id nd2) in EN.
    assert (nd2 = nd') by (unfold node_at in *; congruence). subst nd2. injection EC as <- <- <-.
    rewrite EN' in *. cbn [with_children nd_left nd_right nd_pval].
    assert (W : put_node (inc_splits t2) id (with_preds (with_children nd (length (t_nodes (sc_tree s))) (S (length (t_nodes (sc_tree s))))) None None None) = inc_splits t2).
    { unfold put_node. cbn [inc_splits t_nodes]. rewrite set_nth_same by exact A'. reflexivity. }
    rewrite W. assert (LE : t_leaves t2 = t_leaves (sc_tree s)) by (rewrite TE; reflexivity). cbn [inc_splits t_leaves]. rewrite !LE.
    split; [exact TI|]. split; [|discriminate]. intros _. rewrite TE. cbn. now rewrite S1. }
  destruct K as [K1 [K2 K3]]. split; [|split; [|split]]; auto.
  - destruct K1. constructor; auto.
Qed.

Lemma loop_tinv fuel : forall t e t' e', tinv t -> fit_loop M c fuel t e = Ok (t', e') ->
  tinv t' /\ t_splits t <= t_splits t' /\
  (forall m, tc_max_leaves c = Some m -> length (t_leaves t') <= m) /\
  (t' = t \/ get_depth t' = Ok (t_depth t')).
Proof.
  induction fuel as [|fuel IH]; intros t e t' e' T H; cbn [fit_loop] in H; apply rbind_ok in H; destruct H as [stop [EF H]].
  - destruct stop; [|discriminate]. injection H as <- <-. split; auto. split; auto. split; auto. intros m Em. rewrite Em in EF.
    destruct (Nat.eqb_spec (length (t_leaves t)) m); [lia|]. destruct (m <? length (t_leaves t)); discriminate.
  - assert (LM : forall m, tc_max_leaves c = Some m -> length (t_leaves t) <= m).
    { intros m Em. rewrite Em in EF. destruct (Nat.eqb_spec (length (t_leaves t)) m); [lia|]. destruct (Nat.ltb_spec m (length (t_leaves t))); [discriminate|lia]. }
    destruct stop; [injection H as <- <-; ands; auto|].
    assert (LM' : forall m, tc_max_leaves c = Some m -> length (t_leaves t) < m).
    { intros m Em. rewrite Em in EF. destruct (Nat.eqb_spec (length (t_leaves t)) m); [discriminate|]. destruct (Nat.ltb_spec m (length (t_leaves t))); [discriminate|lia]. }
    apply rbind_ok in H. destruct H as [[[t1 e1] cont] [ES H]]. destruct (fit_step_tinv _ _ _ _ _ T ES) as [T1 [GD [C1 C2]]].
    destruct cont.
    + destruct (IH _ _ _ _ T1 H) as [J1 [J2 [J3 J4]]]. rewrite C1 in J2 by auto. ands; auto; [lia|]. right. destruct J4 as [->|]; auto.
    + injection H as <- <-. rewrite C2 in * by auto. ands; auto. intros m Em. pose proof (LM' m Em).
      destruct (ti_splits _ T) as [X _]. destruct (ti_splits _ T1) as [Y _]. rewrite C2 in Y by auto. lia.
Qed.
End Inv.

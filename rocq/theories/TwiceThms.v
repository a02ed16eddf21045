(** Calling fit again on a fitted tree. *)
From Coq Require Import List Arith Bool ZArith QArith Qcanon Lia Permutation.
From Verif Require Import Base Num Rng Histogram Utils Criteria Solvers Tree Spec SolverSpec TreeSpec ForestSpec NumFacts ListFacts TreeFacts TreeThms ColSim NestThms.
Import ListNotations.
Local Open Scope nat_scope.

(** A node whose scan needs no solver. *)
Definition settled (c : tcfg) (nd : node) : Prop :=
  check_constraints c nd = Ok false \/ (check_constraints c nd = Ok true /\ nd_computed nd = true /\ exists b, nd_splittable nd = Some b).
Definition all_settled (c : tcfg) (t : tree) (ids : list nat) : Prop := forall id nd, In id ids -> node_at t id nd -> settled c nd.
(** Nodes that have been split hold no labels any more. *)
Definition dropped (t : tree) : Prop := forall id nd, node_at t id nd -> nd_left nd <> None -> nd_labels nd = None.

Section Inv.
Context (M : math) (c : tcfg) (D : list (list Qc)) (L : list Qc) (FS I0 : list nat) (b0 : option Z).
Notation inv := (tinv M c D L FS I0 b0).

Lemma scan_puts t0 s pos id s' : scan_ok M c D L FS I0 b0 t0 s -> nth_error (t_leaves t0) pos = Some id -> scan_leaf M c s (pos, id) = Ok s' -> sc_stop s = false ->
  exists nd nd', node_at (sc_tree s) id nd /\ nd_left nd = None /\ t_nodes (sc_tree s') = set_nth id nd' (t_nodes (sc_tree s)) /\ same_shape nd nd' /\ (sc_stop s' = false -> settled c nd').
Proof.
  intros [T EL ES EN B] P H SS. unfold scan_leaf in H. rewrite SS in H.
  apply rbind_ok in H. destruct H as [nd [A H]]. apply nth_res_ok in A. change (node_at (sc_tree s) id nd) in A.
  assert (LF : nd_left nd = None).
  { rewrite <- EL in P. apply nth_error_In in P. apply (ti_leaves _ _ _ _ _ _ _ _ T) in P. destruct P as [x [H1 H2]]. unfold node_at in *. congruence. }
  pose proof (ti_node _ _ _ _ _ _ _ _ T _ _ A) as N. exists nd.
  apply rbind_ok in H. destruct H as [ok [CC H]]. destruct ok; cbn [negb] in H.
  2:{ injection H as <-. exists (with_splittable nd false). split; auto. split; auto. split; [reflexivity|]. split; [apply splittable_shape|]. intros _. left. rewrite (constraints_shape c nd) by apply splittable_shape. exact CC. }
  destruct (match t_budget (sc_tree s) with None => false | Some b => (b <=? 0)%Z end) eqn:BU.
  { injection H as <-. exists nd. split; auto. split; auto. split; [symmetry; apply set_nth_same; exact A|]. split; [apply same_shape_refl|]. discriminate. }
  apply rbind_ok in H. destruct H as [[[nd1 red] e1] [EB H]].
  destruct (best_split_ok _ _ _ _ _ _ _ _ _ _ _ _ N LF (or_intror CC) EB) as [K1 [K2 [K3 [K4 [K5 K6]]]]].
  apply rbind_ok in H. destruct H as [[[spl nd3] e3] [EQ H]]. injection H as <-.
  assert (J : same_shape nd1 nd3 /\ nd_computed nd3 = true /\ nd_splittable nd3 = Some spl).
  { destruct (nd_splittable nd1) as [b|] eqn:SP.
    - injection EQ as <- <- <-. split; [apply same_shape_refl|]. auto.
    - apply rbind_ok in EQ. destruct EQ as [[[b nd2] e2] [EC EQ]]. pose proof (splittable_same _ _ _ _ _ _ _ _ K4 EC). subst nd2.
      injection EQ as <- <- <-. split; [apply splittable_shape|]. auto. }
  destruct J as (J1 & J2 & J3). exists nd3. split; auto. split; auto. split; [|split].
  - cbn [sc_tree]. destruct (nd_computed nd); cbn [put_node set_nodes t_nodes pay]; apply set_nth_twice.
  - eapply same_shape_trans; eauto.
  - intros _. right. split; [rewrite (constraints_shape c nd1 nd3 J1), (constraints_shape c nd nd1 K3); exact CC|]. eauto.
Qed.

Lemma stop_stays l : forall z z1, foldM (scan_leaf M c) z l = Ok z1 -> sc_stop z = true -> z1 = z.
Proof.
  induction l as [|p l IH]; intros z z1 H S; cbn [foldM] in H; [congruence|]. apply rbind_ok in H. destruct H as [z2 [E H]].
  unfold scan_leaf in E. rewrite S in E. assert (z = z2) by congruence. subst z2. eauto.
Qed.

Lemma scans_settle t l : (forall pos id, In (pos, id) l -> nth_error (t_leaves t) pos = Some id) ->
  forall z z1, scan_ok M c D L FS I0 b0 t z -> foldM (scan_leaf M c) z l = Ok z1 -> 
  (dropped (sc_tree z) -> dropped (sc_tree z1)) /\
  (sc_stop z1 = false -> forall ids, all_settled c (sc_tree z) ids -> all_settled c (sc_tree z1) (ids ++ map snd l)).
Proof.
  induction l as [|[pos id] l IH]; intros HL z z1 S H; cbn [foldM] in H.
  { assert (z = z1) by congruence. subst. split; auto. intros _ ids A. cbn. now rewrite app_nil_r. }
  destruct (sc_stop z) eqn:SZ.
  { assert (z1 = z) by (apply (stop_stays ((pos, id) :: l)); auto). subst z1. split; auto. congruence. }
  apply rbind_ok in H. destruct H as [z2 [E H]]. assert (P1 : nth_error (t_leaves t) pos = Some id) by (apply HL; now left).
  assert (S2 : scan_ok M c D L FS I0 b0 t z2) by (eapply scan_leaf_ok; eauto).
  destruct (IH (fun p i J => HL p i (or_intror J)) z2 z1 S2 H) as [I1 I2].
  destruct (scan_puts _ _ _ _ _ S P1 E SZ) as (nd & nd' & A & LF & EN & SH & ST). split.
  - intros DR. apply I1. intros j x AX LX. unfold node_at in AX. rewrite EN, set_nth_nth in AX. unfold node_at in A. rewrite A in AX.
    destruct (Nat.eqb_spec j id); [injection AX as <-; rewrite (ss_left _ _ SH) in LX; congruence|]. eapply DR; eauto.
  - intros Z ids AS. assert (Z2 : sc_stop z2 = false). { destruct (sc_stop z2) eqn:Q; auto. rewrite (stop_stays _ _ _ H Q) in Z. congruence. }
    replace (ids ++ map snd ((pos, id) :: l)) with ((ids ++ [id]) ++ map snd l) by (rewrite <- app_assoc; reflexivity). apply I2; auto.
    intros j x J AX. unfold node_at in AX. rewrite EN, set_nth_nth in AX. unfold node_at in A. rewrite A in AX.
    destruct (Nat.eqb_spec j id); [injection AX as <-; now apply ST|]. apply in_app_or in J. destruct J as [J|[J|[]]]; [|congruence]. eapply AS; eauto.
Qed.

(** After a step that does not split, every leaf is settled unless the budget ran out. *)
Lemma step_settles t e t' e' b : inv t -> dropped t -> fit_step M c t e = Ok (t', e', b) ->
  dropped t' /\ (b = false -> b0 = None -> all_settled c t' (t_leaves t')).
Proof.
  intros T DR H. unfold fit_step in H. apply rbind_ok in H. destruct H as [s [ES H]].
  pose proof (scan_ok_all M c D L FS I0 b0 _ _ _ T ES) as SO.
  assert (S0 : scan_ok M c D L FS I0 b0 t {| sc_tree := t; sc_env := e; sc_best := None; sc_stop := false |}) by (constructor; cbn; auto).
  destruct (scans_settle t _ (leaf_places (t_leaves t)) _ _ S0 ES) as [K1 K2]. cbn [sc_tree] in K1, K2.
  apply rbind_ok in H. destruct H as [[[t3 e3] cont] [EC H]]. apply rbind_ok in H. destruct H as [d [ED H]]. injection H as <- <- <-.
  assert (NS : b0 = None -> sc_stop s = false).
  { intros EB. assert (TB : forall z z1 l, t_budget (sc_tree z) = None -> sc_stop z = false -> foldM (scan_leaf M c) z l = Ok z1 -> sc_stop z1 = false).
    { intros z z1 l. revert z z1. induction l as [|[pos id] l IH]; intros z z1 BN SZ H; cbn [foldM] in H; [congruence|]. apply rbind_ok in H. destruct H as [z2 [E H]].
      enough (t_budget (sc_tree z2) = None /\ sc_stop z2 = false) by (eapply IH; [| |exact H]; tauto). clear -E BN SZ. unfold scan_leaf in E. rewrite SZ in E.
      apply rbind_ok in E. destruct E as [nd [A E]]. apply rbind_ok in E. destruct E as [ok [CC E]]. destruct ok; cbn [negb] in E; [|injection E as <-; auto].
      rewrite BN in E. apply rbind_ok in E. destruct E as [[[nd1 red] e1] [EB E]]. apply rbind_ok in E. destruct E as [[[spl nd3] e3] [EQ E]]. injection E as <-. cbn [sc_tree sc_stop].
      split; [|reflexivity]. destruct (nd_computed nd); cbn; rewrite ?BN; auto. }
    eapply TB; [| |exact ES]; cbn; auto. rewrite (ti_budget _ _ _ _ _ _ _ _ T), EB. reflexivity. }
  assert (AL : b0 = None -> all_settled c (sc_tree s) (t_leaves (sc_tree s))).
  { intros EB. rewrite (so_leaves _ _ _ _ _ _ _ _ _ SO). specialize (K2 (NS EB) []). cbn [app] in K2.
    replace (map snd (combine (seq 0 (length (t_leaves t))) (t_leaves t))) with (t_leaves t) in K2; [apply K2; intros ? ? []|].
    clear. generalize 0. induction (t_leaves t) as [|x l IH]; intros k; cbn; auto. f_equal. apply IH. }
  destruct (sc_best s) as [[[pos id] x]|] eqn:SB; [|injection EC as <- <- <-; split; [exact (K1 DR)|intros _ EB; exact (AL EB)]].
  destruct (xlt x (Fin (tc_min_imp c))) eqn:X; [|injection EC as <- <- <-; split; [exact (K1 DR)|intros _ EB; exact (AL EB)]].
  apply rbind_ok in EC. destruct EC as [[t2 e2] [E2 EC]]. cbn [fst snd] in EC.
  pose proof (so_tree _ _ _ _ _ _ _ _ _ SO) as T1. pose proof (so_best _ _ _ _ _ _ _ _ _ SO) as B1. rewrite SB in B1. destruct B1 as [P [nd [A [LF [CC [RX SP]]]]]].
  destruct (fit_step_split _ _ _ _ _ _ _ _ _ _ _ _ _ _ _ T1 P A LF CC RX X E2) as [nl [nr [nd' [TE [A' [EN' [TI NW]]]]]]].
  apply rbind_ok in EC. destruct EC as [nd2 [EN EC]]. apply nth_res_ok in EN. change (node_at t2 id nd2) in EN.
  assert (nd2 = nd') by (unfold node_at in *; congruence). subst nd2. injection EC as <- <- <-. split; [|discriminate].
  set (k := length (t_nodes (sc_tree s))) in *.
  assert (NE2 : t_nodes t2 = set_nth id (with_children nd k (S k)) (t_nodes (sc_tree s)) ++ [nl; nr]) by (rewrite TE; reflexivity).
  assert (LN : nd_left nl = None /\ nd_left nr = None).
  { assert (LT : t_leaves (set_leaves (inc_splits t2) (remove_nth pos (t_leaves (sc_tree s)) ++ [k; S k])) = remove_nth pos (t_leaves (sc_tree s)) ++ [k; S k]) by reflexivity.
    assert (AK : forall j nj, In j [k; S k] -> nth_error (t_nodes t2) j = Some nj -> nd_left nj = None).
    { intros j nj J Q. assert (JL : In j (t_leaves (set_leaves (inc_splits t2) (remove_nth pos (t_leaves (sc_tree s)) ++ [k; S k])))) by (rewrite LT; apply in_or_app; now right).
      apply (ti_leaves _ _ _ _ _ _ _ _ TI) in JL. destruct JL as [y [Y1 Y2]]. unfold node_at in Y1. cbn in Y1. congruence. }
    split; eapply AK; [now left| |right; now left|]; rewrite NE2, nth_error_app2; rewrite set_nth_length; fold k; try lia; [now rewrite Nat.sub_diag|]. replace (S k - k) with 1 by lia. reflexivity. }
  intros j x' AX LX. cbn [set_depth set_leaves] in AX. unfold node_at in AX. cbn [t_nodes set_leaves set_depth put_node set_nodes inc_splits] in AX.
  rewrite set_nth_nth in AX. unfold node_at in EN. rewrite EN in AX. destruct (Nat.eqb_spec j id).
  - injection AX as <-. rewrite EN'. reflexivity.
  - rewrite NE2 in AX. destruct (Nat.lt_ge_cases j k) as [JK|JK].
    + rewrite nth_error_app1 in AX by (rewrite set_nth_length; exact JK). rewrite set_nth_nth in AX. unfold node_at in A. rewrite A in AX. destruct (Nat.eqb_spec j id); [contradiction|]. exact (K1 DR j x' AX LX).
    + rewrite nth_error_app2 in AX by (rewrite set_nth_length; exact JK). rewrite set_nth_length in AX. fold k in AX. destruct (j - k) as [|[|q]]; cbn in AX; [| |destruct q; discriminate]; injection AX as <-; tauto.
Qed.

Lemma loop_settles fuel : forall t e t' e', inv t -> dropped t -> fit_loop M c fuel t e = Ok (t', e') ->
  dropped t' /\ (b0 = None -> tc_max_leaves c = Some (length (t_leaves t')) \/ all_settled c t' (t_leaves t')).
Proof.
  induction fuel as [|fuel IH]; intros t e t' e' T DR H; cbn [fit_loop] in H; apply rbind_ok in H; destruct H as [stop [EF H]].
  - destruct stop; [|discriminate]. injection H as <- <-. split; auto. intros _. left. destruct (tc_max_leaves c) as [m|]; [|discriminate]. destruct (Nat.eqb_spec (length (t_leaves t)) m); [congruence|]. destruct (m <? length (t_leaves t)); discriminate.
  - destruct stop.
    + injection H as <- <-. split; auto. intros _. left. destruct (tc_max_leaves c) as [m|]; [|discriminate]. destruct (Nat.eqb_spec (length (t_leaves t)) m); [congruence|]. destruct (m <? length (t_leaves t)); discriminate.
    + apply rbind_ok in H. destruct H as [[[t1 e1] cont] [ES H]]. destruct (fit_step_tinv _ _ _ _ _ _ _ _ _ _ _ _ T ES) as [T1 _]. destruct (step_settles _ _ _ _ _ T DR ES) as [D1 A1].
      destruct cont; [eapply IH; eauto|]. injection H as <- <-. split; auto.
Qed.
End Inv.

(** Scanning a settled node again. *)
Lemma rescan M c s pos id nd : sc_stop s = false -> t_budget (sc_tree s) = None -> node_at (sc_tree s) id nd -> settled c nd ->
  exists s', scan_leaf M c s (pos, id) = Ok s' /\ sc_stop s' = false /\ t_budget (sc_tree s') = None /\ exists nd', settled c nd' /\ t_nodes (sc_tree s') = set_nth id nd' (t_nodes (sc_tree s)).
Proof.
  intros SS BU A ST. unfold scan_leaf. rewrite SS. unfold node_at in A. apply nth_res_ok in A. rewrite A. cbn [rbind].
  destruct ST as [C|(C & CM & b & SP)]; rewrite C; cbn [rbind negb].
  - eexists. split; [reflexivity|]. split; [reflexivity|]. split; [exact BU|]. exists (with_splittable nd false). split; [|reflexivity]. left. rewrite <- C. apply constraints_shape, splittable_shape.
  - rewrite BU. unfold calculate_best_split. rewrite CM. cbn [rbind]. rewrite SP. cbn [rbind]. eexists. split; [reflexivity|]. split; [reflexivity|]. split; [exact BU|]. exists nd.
    split; [right; eauto|]. cbn [sc_tree]. cbn [put_node set_nodes t_nodes]. apply set_nth_twice.
Qed.
Lemma rescans M c l : forall s, sc_stop s = false -> t_budget (sc_tree s) = None -> all_settled c (sc_tree s) (map snd l) -> (forall pos id, In (pos, id) l -> exists nd, node_at (sc_tree s) id nd) -> ~ In 0 (map snd l) ->
  exists s', foldM (scan_leaf M c) s l = Ok s' /\ sc_stop s' = false /\ t_budget (sc_tree s') = None /\ nth_error (t_nodes (sc_tree s')) 0 = nth_error (t_nodes (sc_tree s)) 0.
Proof.
  induction l as [|[pos id] l IH]; intros s SS BU AS AT N0; cbn [foldM]; [eauto 6|].
  destruct (AT pos id (or_introl eq_refl)) as [nd A]. destruct (rescan M c s pos id nd SS BU A (AS id nd (or_introl eq_refl) A)) as (s1 & E & S1 & B1 & nd' & ST & EN).
  rewrite E. cbn [rbind]. destruct (IH s1 S1 B1) as (s2 & E2 & S2 & B2 & Z).
  - intros j x J AX. unfold node_at in AX. rewrite EN, set_nth_nth in AX. unfold node_at in A. rewrite A in AX. destruct (Nat.eqb_spec j id); [injection AX as <-; auto|]. apply (AS j); auto. now right.
  - intros p j J. destruct (AT p j (or_intror J)) as [x AX]. unfold node_at. rewrite EN, set_nth_nth. unfold node_at in A. rewrite A. destruct (Nat.eqb_spec j id); [eauto|]. eauto.
  - intros J. apply N0. now right.
  - exists s2. split; [exact E2|]. split; auto. split; auto. rewrite Z, EN, set_nth_nth. unfold node_at in A. rewrite A. destruct (Nat.eqb_spec 0 id); [|reflexivity]. subst. exfalso. apply N0. now left.
Qed.

(** ** A tree that holds a split *)
Section Again.
Context (P : prng) (M : math) (c : tcfg) (a : targs) (e : env) (t t1 : tree) (e1 : env).
Context (HB : built P M c a e t) (NE : train_rows a <> []) (NB : ta_budget a = None) (HW : warmed c t t1).
Notation inv := (tinv M c (ta_data a) (ta_labels a) (train_feats a) (train_rows a) (ta_budget a)).

Lemma start_dropped t0 e0 d : tree_new P c a e = Ok (t0, e0) -> dropped (start_tree t0 d).
Proof.
  intros H. destruct (start_inv M P c a e t0 e0 d H NE) as [I S]. intros id nd A LX. exfalso. pose proof (ti_splits _ _ _ _ _ _ _ _ I) as [K1 K2]. rewrite S in K1, K2.
  apply LX. assert (id = 0). { assert (id < length (t_nodes (start_tree t0 d))) by (apply nth_error_Some; unfold node_at in A; congruence). lia. } subst id.
  destruct (new_spec _ _ _ _ _ _ H) as (nd0 & ee & _ & -> & _). unfold start_tree in *. cbn in *.
  assert (Z : In 0 [0]) by now left. apply (ti_leaves _ _ _ _ _ _ _ _ I) in Z. destruct Z as [x [X LF]]. unfold node_at in *. cbn in *. congruence.
Qed.
Lemma built_settles : dropped t /\ (tc_max_leaves c = Some (length (t_leaves t)) \/ all_settled c t (t_leaves t)).
Proof.
  destruct (built_loop P M c a e t HB NE) as (t0 & e0 & d & fuel & e2 & H1 & H2 & I & _).
  destruct (loop_settles M c _ _ _ _ _ fuel _ _ _ _ I (start_dropped _ _ _ H1) H2) as [K1 K2]. auto.
Qed.
Lemma warm_fields : t1 = set_nodes t (t_nodes t1) /\ Forall2 (cached c) (t_nodes t) (t_nodes t1).
Proof. destruct HW as (xs & ps & H). destruct (batch_cached c t xs _ _ _ (cached_self P M c a e t HB NE) H) as [[A B] _]. auto. Qed.
Lemma cached_settled nd nd' : cached c nd nd' -> settled c nd -> settled c nd'.
Proof. intros [-> _ _] H. exact H. Qed.

(** Everything but the nodes' memo of predictions is that of the fitted tree. *)
Lemma warm_root : exists r, node_at t1 0 r /\ (0 < t_splits t -> check_constraints c r = Err AttributeError).
Proof.
  pose proof (built_tinv P M c a e t HB NE) as T. destruct (ti_root _ _ _ _ _ _ _ _ T) as (r & A & IR & DR & _).
  destruct warm_fields as [_ F]. destruct (Forall2_nth _ _ _ _ _ F A) as (r' & A' & C). exists r'. split; [exact A'|]. intros SP.
  assert (LX : nd_left r <> None).
  { intros Z. pose proof (ti_splits _ _ _ _ _ _ _ _ T) as [K1 K2]. assert (Z1 : 1 < length (t_nodes t)) by lia.
    destruct (nth_error (t_nodes t) 1) as [n1|] eqn:E1; [|apply nth_error_None in E1; lia].
    destruct (ti_parent _ _ _ _ _ _ _ _ T 1 n1 E1 ltac:(lia)) as (p & pn & _ & LP & AP & Q). assert (p = 0) by lia. subst p. assert (pn = r) by (unfold node_at in *; congruence). subst pn.
    destruct (ti_leaf _ _ _ _ _ _ _ _ T 0 r A Z) as [RZ _]. destruct Q; congruence. }
  destruct (ti_inner _ _ _ _ _ _ _ _ T 0 r A LX) as (l & rr & nl & nr & s & v & x & EE). assert (EG : eligible c (ta_labels a) r) by (decompose [and] EE; assumption).
  destruct EG as (G1 & G2 & _). pose proof (proj1 built_settles 0 r A LX) as LB. pose proof (ti_node _ _ _ _ _ _ _ _ T _ _ A) as N.
  destruct C as [-> _ _]. unfold check_constraints. cbn [with_preds nd_depth nd_n nd_labels]. rewrite LB, (no_n _ _ _ _ _ _ _ N).
  assert (Q : (tc_min_split c <? length (nd_idcs r)) = true) by (now apply Nat.ltb_lt). rewrite Q.
  unfold below_depth in G1. destruct (tc_max_depth c); try contradiction; try reflexivity. apply Z.ltb_lt in G1. rewrite G1. reflexivity.
Qed.
Lemma root_not_leaf : 0 < t_splits t -> ~ In 0 (t_leaves t1).
Proof.
  intros SP I. destruct warm_fields as [ET F]. rewrite ET in I. cbn in I. pose proof (built_tinv P M c a e t HB NE) as T. destruct warm_root as (r & A & C). specialize (C SP).
  apply (ti_leaves _ _ _ _ _ _ _ _ T) in I. destruct I as (x & X & LX). destruct (Forall2_nth' _ _ _ _ _ F A) as (y & Y & [Q _ _]). rewrite Q in C. clear Q.
  assert (x = y) by (unfold node_at in *; congruence). subst y. destruct (no_data _ _ _ _ _ _ _ (ti_node _ _ _ _ _ _ _ _ T _ _ X) LX) as [_ LB].
  unfold check_constraints in C. cbn [with_preds nd_depth nd_n nd_labels] in C. rewrite LB in C. destruct (tc_max_depth c); cbn in C; try discriminate; repeat match type of C with (if ?b then _ else _) = _ => destruct b; try discriminate end.
Qed.

(** The loop started on the leaves and the root once more. *)
Lemma loop_again t2 fuel : 0 < t_splits t -> t_nodes t2 = t_nodes t1 -> t_leaves t2 = t_leaves t1 ++ [0] -> t_budget t2 = None ->
  fit_loop M c (S fuel) t2 e1 =
    match tc_max_leaves c with
    | Some m => if m =? length (t_leaves t) then Err GenericException else if m =? S (length (t_leaves t)) then Ok (t2, e1) else Err AttributeError
    | None => Err AttributeError
    end.
Proof.
  intros SP EN EL EB. destruct warm_fields as [ET F].
  assert (LT : t_leaves t1 = t_leaves t) by (rewrite ET; reflexivity).
  assert (LL : length (t_leaves t2) = S (length (t_leaves t))) by (rewrite EL, LT, app_length; cbn; lia).
  assert (STEP : tc_max_leaves c <> Some (length (t_leaves t)) -> fit_step M c t2 e1 = Err AttributeError).
  { intros NM. destruct built_settles as [_ [Q|AS]]; [contradiction|]. unfold fit_step.
    assert (EQ : combine (seq 0 (length (t_leaves t2))) (t_leaves t2) = combine (seq 0 (length (t_leaves t))) (t_leaves t) ++ [(length (t_leaves t), 0)]).
    { rewrite LL, EL, LT. assert (G : forall k (l : list nat), combine (seq k (S (length l))) (l ++ [0]) = combine (seq k (length l)) l ++ [(k + length l, 0)]).
      { intros k l. revert k. induction l as [|x l IH]; intros k; [cbn; now rewrite Nat.add_0_r|]. cbn [length app]. change (seq k (S (S (length l)))) with (k :: seq (S k) (S (length l))). change (seq k (S (length l))) with (k :: seq (S k) (length l)). cbn [combine app]. f_equal. rewrite IH. f_equal. f_equal. f_equal. lia. }
      apply (G 0). }
    rewrite EQ, foldM_app.
    assert (MS : map snd (combine (seq 0 (length (t_leaves t))) (t_leaves t)) = t_leaves t) by (clear; generalize 0; induction (t_leaves t) as [|x l IH]; intros k; cbn; [auto|f_equal; apply IH]).
    destruct (rescans M c (combine (seq 0 (length (t_leaves t))) (t_leaves t)) {| sc_tree := t2; sc_env := e1; sc_best := None; sc_stop := false |}) as (s & E & S1 & B1 & Z); cbn [sc_tree sc_stop]; auto.
    - rewrite MS. intros id x I A. unfold node_at in A. rewrite EN in A. destruct (Forall2_nth' _ _ _ _ _ F A) as (y & Y & C). eapply cached_settled; eauto.
    - intros pos id I. apply leaf_places, nth_error_In in I. apply (ti_leaves _ _ _ _ _ _ _ _ (built_tinv P M c a e t HB NE)) in I. destruct I as (x & X & _).
      unfold node_at. rewrite EN. destruct (Forall2_nth _ _ _ _ _ F X) as (y & Y & _). eauto.
    - rewrite MS, <- LT. now apply root_not_leaf.
    - rewrite E. cbn [rbind foldM]. destruct warm_root as (r & A & C). unfold scan_leaf. rewrite S1. unfold nth_res. rewrite Z. cbn [sc_tree]. rewrite EN. unfold node_at in A. rewrite A. cbn [rbind]. rewrite (C SP). reflexivity. }
  cbn [fit_loop]. destruct (tc_max_leaves c) as [m|] eqn:EM.
  - pose proof (fitted_leaf_limit P M c a e t HB NE m EM) as LE. rewrite LL. destruct (Nat.eqb_spec m (length (t_leaves t))) as [->|N1].
    + destruct (Nat.eqb_spec (S (length (t_leaves t))) (length (t_leaves t))); [lia|]. destruct (Nat.ltb_spec (length (t_leaves t)) (S (length (t_leaves t)))); [reflexivity|lia].
    + destruct (Nat.eqb_spec m (S (length (t_leaves t)))) as [->|N2].
      * rewrite Nat.eqb_refl. reflexivity.
      * destruct (Nat.eqb_spec (S (length (t_leaves t))) m); [congruence|]. destruct (Nat.ltb_spec m (S (length (t_leaves t)))); [lia|]. cbn [rbind]. rewrite STEP by congruence. reflexivity.
  - cbn [rbind]. rewrite STEP by congruence. reflexivity.
Qed.
End Again.

(** ** A tree without a split *)
Definition quiet (c : tcfg) (nd : node) : Prop :=
  check_constraints c nd = Ok false \/ (check_constraints c nd = Ok true /\ nd_computed nd = true /\ exists b, nd_splittable nd = Some b /\
    forall x, nd_red nd = Some x -> xlt x PInf = true -> b = true -> xlt x (Fin (tc_min_imp c)) = false).
Definition harmless (c : tcfg) (b : option (nat * nat * xn)) : Prop := match b with Some (_, _, x) => xlt x (Fin (tc_min_imp c)) = false | None => True end.
Lemma xlt_inf x y : xlt x y = true -> xlt x PInf = true.
Proof. destruct x, y; cbn; auto; discriminate. Qed.

Lemma rescan_quiet M c s pos nd : sc_stop s = false -> t_budget (sc_tree s) = None -> nth_error (t_nodes (sc_tree s)) 0 = Some nd -> quiet c nd -> harmless c (sc_best s) ->
  exists s' nd', scan_leaf M c s (pos, 0) = Ok s' /\ sc_stop s' = false /\ t_budget (sc_tree s') = None /\ harmless c (sc_best s') /\ quiet c nd' /\ same_shape nd nd' /\
    nth_error (t_nodes (sc_tree s')) 0 = Some nd' /\ t_leaves (sc_tree s') = t_leaves (sc_tree s) /\ length (t_nodes (sc_tree s')) = length (t_nodes (sc_tree s)) /\ sc_env s' = sc_env s.
Proof.
  intros SS BU A Q HM. unfold scan_leaf. rewrite SS. unfold nth_res. rewrite A. cbn [rbind].
  destruct Q as [C|(C & CM & b & SP & X)]; rewrite C; cbn [rbind negb].
  - eexists. exists (with_splittable nd false). split; [reflexivity|]. split; [reflexivity|]. split; [exact BU|]. split; [exact HM|]. split; [left; rewrite <- C; apply constraints_shape, splittable_shape|]. split; [apply splittable_shape|].
    cbn [sc_tree put_node set_nodes t_nodes t_leaves sc_env]. rewrite set_nth_nth, A, set_nth_length. auto.
  - rewrite BU. unfold calculate_best_split. rewrite CM. cbn [rbind]. rewrite SP. cbn [rbind]. eexists. exists nd. split; [reflexivity|]. split; [reflexivity|]. split; [exact BU|]. split; [|split; [right; eauto 6|split; [apply same_shape_refl|]]].
    + cbn [sc_best]. destruct (nd_red nd) as [x|] eqn:RX; auto. destruct (xlt x _ && b) eqn:Z; auto. apply andb_prop in Z. destruct Z as [Z1 Z2]. cbn [harmless]. apply X; auto. eapply xlt_inf; eauto.
    + cbn [sc_tree put_node set_nodes t_nodes t_leaves sc_env]. rewrite set_nth_twice, set_nth_nth, A, set_nth_length. auto.
Qed.

Lemma same_nodes_answer c t t' x : t_nodes t' = t_nodes t -> answer (tree_predict c t' x) = answer (tree_predict c t x).
Proof.
  intros E. unfold tree_predict. rewrite E. destruct (walk (t_nodes t) (length (t_nodes t)) 0 x) as [id|]; cbn [rbind]; [|reflexivity]. destruct (nth_res (t_nodes t) id) as [nd|]; cbn [rbind]; [|reflexivity].
  destruct (tc_class c).
  - destruct (nd_probs nd); [destruct (nd_plabel nd); reflexivity|]. destruct (argmax _); cbn [rbind]; [|reflexivity]. destruct (idx_to_class _ _); cbn [opt_res rbind]; [|reflexivity]. destruct (guard _ _); reflexivity.
  - destruct (nd_pval nd); [reflexivity|]. destruct (nd_labels nd); cbn [opt_res rbind]; [|reflexivity]. destruct (guard _ _); reflexivity.
Qed.
Lemma same_leaf_answer c t t' nd nd' x : t_nodes t = [nd] -> t_nodes t' = [nd'] -> nd_left nd = None -> same_shape nd nd' -> answer (tree_predict c t' x) = answer (tree_predict c t x).
Proof.
  intros E E' LF [[? ? ? ? ? ? ? ? EC] EL ER ED EDT ELB EP EPL EPV]. unfold tree_predict. rewrite E, E'. cbn [walk length nth_res nth_error opt_res rbind]. rewrite EL, ER, LF. destruct (nd_right nd); cbn [rbind]; [reflexivity|].
  cbn [nth_res nth_error rbind]. rewrite EP, EPL, EPV, ELB, EC. destruct (tc_class c).
  - destruct (nd_probs nd); [destruct (nd_plabel nd); reflexivity|]. destruct (argmax _); cbn [rbind]; [|reflexivity]. destruct (idx_to_class _ _); cbn [opt_res rbind]; [|reflexivity]. destruct (guard _ _); reflexivity.
  - destruct (nd_pval nd); [reflexivity|]. destruct (nd_labels nd); cbn [opt_res rbind]; [|reflexivity]. destruct (guard _ _); reflexivity.
Qed.

Section Single.
Context (P : prng) (M : math) (c : tcfg) (a : targs) (e : env) (t : tree).
Context (HB : built P M c a e t) (NE : train_rows a <> []) (NB : ta_budget a = None) (S0 : t_splits t = 0).
Notation inv := (tinv M c (ta_data a) (ta_labels a) (train_feats a) (train_rows a) (ta_budget a)).

Lemma step_quiet t0 e0 t' e' nd : inv t0 -> t_leaves t0 = [0] -> fit_step M c t0 e0 = Ok (t', e', false) -> node_at t' 0 nd -> quiet c nd.
Proof.
  intros T EL H A. unfold fit_step in H. rewrite EL in H. cbn [length seq combine foldM] in H. apply rbind_ok in H. destruct H as [s [ES H]].
  apply rbind_ok in ES. destruct ES as [s' [ES EQ]]. assert (s' = s) by congruence. subst s'. clear EQ.
  assert (AT : node_at (sc_tree s) 0 nd /\ harmless c (sc_best s)).
  { apply rbind_ok in H. destruct H as [[[t3 e3] cont] [EC H]]. apply rbind_ok in H. destruct H as [d [_ H]]. injection H as <- <- ->. unfold node_at in *. cbn [set_depth t_nodes] in A.
    destruct (sc_best s) as [[[pos id] x]|]; [|injection EC as <- <-; split; [exact A|exact Logic.I]]. cbn [harmless]. destruct (xlt x (Fin (tc_min_imp c))); [|injection EC as <- <-; auto].
    apply rbind_ok in EC. destruct EC as [te [_ EC]]. apply rbind_ok in EC. destruct EC as [n [_ EC]]. discriminate. }
  destruct AT as [A1 HM]. unfold scan_leaf in ES. cbn [sc_stop sc_tree] in ES. apply rbind_ok in ES. destruct ES as [n0 [A0 ES]]. apply nth_res_ok in A0.
  assert (LF : nd_left n0 = None). { assert (Z : In 0 (t_leaves t0)) by (rewrite EL; now left). apply (ti_leaves _ _ _ _ _ _ _ _ T) in Z. destruct Z as [y [Y1 Y2]]. unfold node_at in Y1. congruence. }
  pose proof (ti_node _ _ _ _ _ _ _ _ T _ _ A0) as N.
  apply rbind_ok in ES. destruct ES as [ok [CC ES]]. destruct ok; cbn [negb] in ES.
  2:{ injection ES as <-. unfold node_at in A1. cbn [sc_tree put_node set_nodes t_nodes] in A1. rewrite set_nth_nth, A0 in A1. injection A1 as <-. left. rewrite <- CC. apply constraints_shape, splittable_shape. }
  rewrite (ti_budget _ _ _ _ _ _ _ _ T), NB in ES. cbn [option_map] in ES.
  apply rbind_ok in ES. destruct ES as [[[nd1 red] e2] [EB ES]]. destruct (best_split_ok _ _ _ _ _ _ _ _ _ _ _ _ N LF (or_intror CC) EB) as [K1 [K2 [K3 [K4 [K5 K6]]]]].
  apply rbind_ok in ES. destruct ES as [[[spl nd3] e3] [EQ ES]]. injection ES as <-.
  assert (J : same_shape nd1 nd3 /\ nd_computed nd3 = true /\ nd_splittable nd3 = Some spl /\ nd_red nd3 = nd_red nd1).
  { destruct (nd_splittable nd1) as [b|] eqn:SP.
    - injection EQ as <- <- <-. split; [apply same_shape_refl|]. auto.
    - apply rbind_ok in EQ. destruct EQ as [[[b nd2] e4] [EC EQ]]. pose proof (splittable_same _ _ _ _ _ _ _ _ K4 EC). subst nd2.
      injection EQ as <- <- <-. split; [apply splittable_shape|]. auto. }
  destruct J as (J1 & J2 & J3 & J4).
  assert (nd = nd3). { unfold node_at in A1. cbn [sc_tree] in A1. destruct (nd_computed n0); cbn [put_node set_nodes t_nodes pay] in A1; rewrite set_nth_twice, set_nth_nth, A0 in A1; cbn in A1; congruence. } subst nd.
  right. split; [rewrite (constraints_shape c nd1 nd3 J1), (constraints_shape c n0 nd1 K3); exact CC|]. split; auto. exists spl. split; auto.
  intros x RX XI ->. rewrite J4 in RX. rewrite RX in K5. subst red. cbv beta iota zeta delta [sc_best] in HM. rewrite XI in HM. exact HM.
Qed.

Lemma single_node : exists nd, t_nodes t = [nd] /\ nd_left nd = None /\ t_leaves t = [0] /\ (tc_max_leaves c <> Some 1 -> quiet c nd).
Proof.
  pose proof (built_tinv P M c a e t HB NE) as T. pose proof (ti_splits _ _ _ _ _ _ _ _ T) as [K1 K2]. rewrite S0 in K1, K2. cbn in K2.
  destruct (t_nodes t) as [|nd [|? ?]] eqn:EN; cbn in K2; try lia. destruct (t_leaves t) as [|id [|? ?]] eqn:EL; cbn in K1; try lia.
  assert (I : In id (t_leaves t)) by (rewrite EL; now left). apply (ti_leaves _ _ _ _ _ _ _ _ T) in I. destruct I as (y & Y & LF). unfold node_at in Y. rewrite EN in Y. destruct id as [|id]; [|destruct id; discriminate]. injection Y as <-.
  exists nd. split; auto. split; auto. split; auto. intros NM. destruct (built_loop P M c a e t HB NE) as (t0 & e0 & d & fuel & e2 & H1 & H2 & I & Z).
  assert (L0 : t_leaves (start_tree t0 d) = [0]) by (destruct (new_spec _ _ _ _ _ _ H1) as (nd0 & ee & _ & -> & _); reflexivity).
  destruct fuel as [|fuel]; cbn [fit_loop] in H2; apply rbind_ok in H2; destruct H2 as [stop [EF H2]]; rewrite L0 in EF; cbn [length] in EF.
  - destruct stop; [|discriminate]. destruct (tc_max_leaves c) as [[|[|m]]|]; try discriminate. congruence.
  - destruct stop; [destruct (tc_max_leaves c) as [[|[|m]]|]; try discriminate; congruence|].
    apply rbind_ok in H2. destruct H2 as [[[t2 e3] cont] [ES H2]]. destruct cont.
    + destruct (fit_step_tinv _ _ _ _ _ _ _ _ _ _ _ _ I ES) as [T2 [_ [Q _]]]. destruct (loop_tinv _ _ _ _ _ _ _ _ _ _ _ _ T2 H2) as [_ [Q2 _]]. rewrite Q in Q2 by auto. lia.
    + injection H2 as <- <-. eapply step_quiet; eauto. unfold node_at. now rewrite EN.
Qed.
End Single.

(** ** Fitting again *)
Section Main.
Context (P : prng) (M : math) (c : tcfg) (a : targs) (e : env) (t t1 : tree) (e1 : env).
Context (HB : built P M c a e t) (NE : train_rows a <> []) (NB : ta_budget a = None) (HW : warmed c t t1).

Lemma warm_answer x : answer (tree_predict c t1 x) = answer (tree_predict c t x).
Proof. destruct HW as (xs & ps & H). eapply fitted_memoryless; eauto. Qed.

(** The call reaches the loop with the leaves and the root. *)
Lemma fit_reaches arg r : tree_fit M c t1 arg e1 = Ok r -> exists t2 fuel, t_nodes t2 = t_nodes t1 /\ t_leaves t2 = t_leaves t1 ++ [0] /\ t_budget t2 = None /\ fit_loop M c (S fuel) t2 e1 = Ok r.
Proof.
  assert (BN : t_budget t1 = None). { destruct (warm_fields P M c a e t t1 HB NE HW) as [-> _]. cbn. rewrite (ti_budget _ _ _ _ _ _ _ _ (built_tinv P M c a e t HB NE)), NB. reflexivity. }
  unfold tree_fit. intros H. apply rbind_ok in H. destruct H as [t2 [E2 H]]. apply rbind_ok in H. destruct H as [t3 [E3 H]].
  assert (K2 : t_nodes t2 = t_nodes t1 /\ t_leaves t2 = t_leaves t1 /\ t_budget t2 = None). { destruct arg as [[d|] [l|]]; try discriminate; injection E2 as <-; cbn; auto. }
  assert (K3 : t_nodes t3 = t_nodes t1 /\ t_leaves t3 = t_leaves t1 /\ t_budget t3 = None).
  { match type of E3 with (if ?b then _ else _) = _ => destruct b end; [apply rbind_ok in E3; destruct E3 as [d [_ E3]]|]; injection E3 as <-; cbn; auto. }
  destruct K3 as (A & B & C). destruct (tc_splitter c); try discriminate. exists (set_leaves t3 (t_leaves t3 ++ [0])), (leaf_rows (set_leaves t3 (t_leaves t3 ++ [0]))). cbn. rewrite B. rewrite B in H. auto.
Qed.
Lemma fit_runs : exists t2 fuel, t_nodes t2 = t_nodes t1 /\ t_leaves t2 = t_leaves t1 ++ [0] /\ t_budget t2 = None /\ tree_fit M c t1 (None, None) e1 = fit_loop M c (S fuel) t2 e1.
Proof.
  destruct (warm_fields P M c a e t t1 HB NE HW) as [EW _]. pose proof (built_tinv P M c a e t HB NE) as T.
  assert (BN : t_budget t1 = None). { rewrite EW. cbn. rewrite (ti_budget _ _ _ _ _ _ _ _ T), NB. reflexivity. }
  assert (DT : t_data t1 = ta_data a). { rewrite EW. cbn. apply (ti_data _ _ _ _ _ _ _ _ T). }
  destruct HB as (t0 & e0 & e2 & H1 & H2). destruct (new_spec _ _ _ _ _ _ H1) as (nd0 & ee & _ & E0 & _). assert (D0 : t_data t0 = ta_data a) by now rewrite E0.
  unfold tree_fit in *. cbn [rbind] in *. apply rbind_ok in H2. destruct H2 as [t3 [E3 H2]]. rewrite D0 in E3. rewrite DT.
  match type of E3 with (if ?b then _ else _) = _ => destruct b end.
  - apply rbind_ok in E3. destruct E3 as [d [Ed _]]. rewrite Ed. cbn [rbind]. destruct (tc_splitter c); try discriminate. eexists. eexists. split; [|split; [|split; [|reflexivity]]]; cbn; auto.
  - cbn [rbind]. destruct (tc_splitter c); try discriminate. eexists. eexists. split; [|split; [|split; [|reflexivity]]]; cbn; auto.
Qed.

Lemma loop_single t2 fuel : t_splits t = 0 -> t_nodes t2 = t_nodes t1 -> t_leaves t2 = t_leaves t1 ++ [0] -> t_budget t2 = None ->
  (tc_max_leaves c = Some 1 -> fit_loop M c (S fuel) t2 e1 = Err GenericException) /\
  (tc_max_leaves c <> Some 1 -> exists t3, fit_loop M c (S fuel) t2 e1 = Ok (t3, e1) /\ forall x, answer (tree_predict c t3 x) = answer (tree_predict c t x)).
Proof.
  intros S0 EN EL EB. destruct (single_node P M c a e t HB NE NB S0) as (nd & N1 & LF & L1 & Q). destruct (warm_fields P M c a e t t1 HB NE HW) as [EW F].
  assert (L2 : t_leaves t2 = [0; 0]) by (rewrite EL, EW; cbn; rewrite L1; reflexivity).
  rewrite N1 in F. inversion F as [|? n1 ? ? C F' U1 U2]; subst. inversion F'; subst. rewrite <- U2 in EN.
  assert (LF1 : nd_left n1 = None) by (destruct C as [QC _ _]; rewrite QC; exact LF).
  split.
  - intros EM. cbn [fit_loop]. rewrite EM, L2. reflexivity.
  - intros NM. assert (Q1 : quiet c n1) by (destruct C as [QC _ _]; rewrite QC; exact (Q NM)).
    cbn [fit_loop]. rewrite L2. cbn [length].
    assert (ZERO : tc_max_leaves c <> Some 0). { intros Z. pose proof (fitted_leaf_limit P M c a e t HB NE 0 Z). rewrite L1 in *. cbn in *. lia. }
    assert (STEP : exists t3, fit_step M c t2 e1 = Ok (t3, e1, false) /\ exists n2, t_nodes t3 = [n2] /\ same_shape n1 n2).
    { unfold fit_step. rewrite L2. cbn [length seq combine foldM].
      destruct (rescan_quiet M c {| sc_tree := t2; sc_env := e1; sc_best := None; sc_stop := false |} 0 n1) as (s1 & m1 & E1 & S1 & B1 & H1 & Q2 & SH1 & A1 & LV1 & LN1 & EE1); cbn [sc_stop sc_tree sc_best harmless]; auto; [now rewrite EN|].
      rewrite E1. cbn [rbind]. destruct (rescan_quiet M c s1 1 m1 S1 B1 A1 Q2 H1) as (s2 & m2 & E2 & S2 & B2 & H2 & _ & SH2 & A2 & LV2 & LN2 & EE2). rewrite E2. cbn [rbind].
      cbv zeta. match goal with |- exists t3, rbind ?Z _ = _ /\ _ => assert (X : Z = Ok (sc_tree s2, sc_env s2, false)) end.
      { destruct (sc_best s2) as [[[p i] x]|]; [|reflexivity]. cbn [harmless] in H2. rewrite H2. reflexivity. }
      rewrite X. cbn [rbind]. unfold get_depth. rewrite LV2, LV1. cbn [sc_tree]. rewrite L2. cbn [mapM rbind]. unfold nth_res. rewrite A2. cbn [rbind].
      eexists. rewrite EE2, EE1. cbn [sc_env]. split; [reflexivity|]. exists m2. cbn [set_depth t_nodes]. split; [|eapply same_shape_trans; eauto].
      cbn [sc_tree] in LN1. rewrite LN1, EN in LN2. cbn in LN2. destruct (t_nodes (sc_tree s2)) as [|y [|? ?]]; cbn in LN2; try lia. cbn in A2. congruence. }
    assert (FIN : exists t3, (do r <- fit_step M c t2 e1; let '(t', e', cont) := r in if cont then fit_loop M c fuel t' e' else Ok (t', e')) = Ok (t3, e1) /\ forall x, answer (tree_predict c t3 x) = answer (tree_predict c t x)).
    { destruct STEP as (t3 & E3 & n2 & N2 & SH). rewrite E3. cbn [rbind]. exists t3. split; [reflexivity|]. intros x. rewrite <- warm_answer. apply (same_leaf_answer c t1 t3 n1 n2); auto. }
    destruct (tc_max_leaves c) as [[|[|[|m]]]|]; try congruence; cbn [Nat.eqb Nat.ltb Nat.leb rbind]; try exact FIN.
    exists t2. split; [reflexivity|]. intros x. rewrite <- warm_answer. apply same_nodes_answer. congruence.
Qed.

(** Fitting a fitted tree again, without a budget: what the call does. *)
Theorem fit_again :
  (0 < t_splits t ->
     (tc_max_leaves c = Some (length (t_leaves t)) -> tree_fit M c t1 (None, None) e1 = Err GenericException) /\
     (tc_max_leaves c = Some (S (length (t_leaves t))) -> exists t2, tree_fit M c t1 (None, None) e1 = Ok (t2, e1)) /\
     (tc_max_leaves c <> Some (length (t_leaves t)) -> tc_max_leaves c <> Some (S (length (t_leaves t))) -> tree_fit M c t1 (None, None) e1 = Err AttributeError)) /\
  (t_splits t = 0 ->
     (tc_max_leaves c = Some 1 -> tree_fit M c t1 (None, None) e1 = Err GenericException) /\
     (tc_max_leaves c <> Some 1 -> exists t2, tree_fit M c t1 (None, None) e1 = Ok (t2, e1))).
Proof.
  destruct fit_runs as (t2 & fuel & A & B & C & E). split.
  - intros SP. rewrite E, (loop_again P M c a e t t1 e1 HB NE NB HW t2 fuel SP A B C). split; [|split].
    + intros ->. rewrite Nat.eqb_refl. reflexivity.
    + intros ->. rewrite Nat.eqb_refl. destruct (Nat.eqb_spec (S (length (t_leaves t))) (length (t_leaves t))); [lia|]. eauto.
    + intros N1 N2. destruct (tc_max_leaves c) as [m|]; [|reflexivity]. destruct (Nat.eqb_spec m (length (t_leaves t))); [congruence|]. destruct (Nat.eqb_spec m (S (length (t_leaves t)))); [congruence|]. reflexivity.
  - intros S0. rewrite E. destruct (loop_single t2 fuel S0 A B C) as [K1 K2]. split; auto. intros NM. destruct (K2 NM) as (t3 & K & _). eauto.
Qed.

(** Whatever it is given, it never changes a prediction. *)
Theorem fit_again_changes_nothing arg t2 e2 : tree_fit M c t1 arg e1 = Ok (t2, e2) -> e2 = e1 /\ forall x, answer (tree_predict c t2 x) = answer (tree_predict c t x).
Proof.
  intros H. destruct (fit_reaches arg _ H) as (t3 & fuel & A & B & C & E). destruct (Nat.eq_dec (t_splits t) 0) as [S0|SP].
  - destruct (loop_single t3 fuel S0 A B C) as [K1 K2]. assert (NM : tc_max_leaves c <> Some 1) by (intros Z; rewrite (K1 Z) in E; discriminate). destruct (K2 NM) as (t4 & K & X). rewrite K in E. injection E as <- <-. auto.
  - rewrite (loop_again P M c a e t t1 e1 HB NE NB HW t3 fuel ltac:(lia) A B C) in E. destruct (tc_max_leaves c) as [m|]; [|discriminate]. destruct (m =? length (t_leaves t)); [discriminate|]. destruct (m =? S (length (t_leaves t))); [|discriminate].
    injection E as <- <-. split; auto. intros x. rewrite <- warm_answer. apply same_nodes_answer. exact A.
Qed.
End Main.

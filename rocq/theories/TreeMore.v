(** More about fitting: the leaf limit, an exhausted budget, optimality of the recorded splits
    and completeness of the search. *)
From Coq Require Import List Arith Bool ZArith QArith Qcanon Lia Permutation.
From Verif Require Import Base Num Rng Histogram Utils Criteria Solvers Tree Spec SolverSpec TreeSpec NumFacts ListFacts HistFacts HistAdd CritFacts ReductionFacts ExactProps DrawFacts TreeFacts CountFacts TreeThms TreeTotal.
Import ListNotations.
Local Open Scope nat_scope.

Lemma skipn_nth_cons {A} k (l : list A) x : nth_error l k = Some x -> skipn k l = x :: skipn (S k) l.
Proof. revert l. induction k; intros [|y l] H; try discriminate H; [now injection H as ->|]. cbn in *. now apply IHk. Qed.

(** ** Leaf limit and budget *)
Section Limits.
Context (M : math) (c : tcfg) (D : list (list Qc)) (L : list Qc) (FS I0 : list nat) (b0 : option Z).
Notation inv := (tinv M c D L FS I0 b0).

Lemma state_tinv t e t' e' : loop_state M c t e t' e' -> inv t -> inv t' /\
  forall m, tc_max_leaves c = Some m -> length (t_leaves t) <= m -> length (t_leaves t') <= m.
Proof.
  induction 1 as [|t e t1 e1 t2 e2 H IH NF ST]; intros T; [auto|]. destruct (IH T) as [T1 L1].
  destruct (fit_step_tinv _ _ _ _ _ _ _ _ _ _ _ _ T1 ST) as [T2 [_ [C1 _]]]. split; auto.
  intros m Em LE. specialize (L1 m Em LE). rewrite Em in NF. destruct (ti_splits _ _ _ _ _ _ _ _ T1), (ti_splits _ _ _ _ _ _ _ _ T2).
  rewrite C1 in * by auto. assert (m <> length (t_leaves t1)) by congruence. lia.
Qed.

(** With no budget left nothing is evaluated. *)
Lemma scan_broke s pl s' b : t_budget (sc_tree s) = Some b -> (b <= 0)%Z -> scan_leaf M c s pl = Ok s' ->
  sc_best s' = sc_best s /\ t_budget (sc_tree s') = Some b /\ t_queries (sc_tree s') = t_queries (sc_tree s).
Proof.
  intros EB LE H. unfold scan_leaf in H. destruct (sc_stop s); [injection H as <-; auto|]. destruct pl as [pos id].
  apply rbind_ok in H. destruct H as [nd [A H]]. apply rbind_ok in H. destruct H as [ok [CC H]].
  destruct ok; cbn [negb] in H; [|injection H as <-; auto].
  rewrite EB, (proj2 (Z.leb_le _ _) LE) in H. injection H as <-. auto.
Qed.
Lemma step_broke t e t' e' cont b : t_budget t = Some b -> (b <= 0)%Z -> fit_step M c t e = Ok (t', e', cont) ->
  cont = false /\ t_splits t' = t_splits t /\ t_leaves t' = t_leaves t /\ t_queries t' = t_queries t.
Proof.
  intros EB LE H. unfold fit_step in H. apply rbind_ok in H. destruct H as [s [ES H]].
  assert (G : sc_best s = None /\ t_budget (sc_tree s) = Some b /\ t_queries (sc_tree s) = t_queries t /\ t_splits (sc_tree s) = t_splits t /\ t_leaves (sc_tree s) = t_leaves t).
  { revert ES. apply (foldM_inv (scan_leaf M c) (fun s => sc_best s = None /\ t_budget (sc_tree s) = Some b /\ t_queries (sc_tree s) = t_queries t /\ t_splits (sc_tree s) = t_splits t /\ t_leaves (sc_tree s) = t_leaves t)); [cbn; auto|]. intros pl s1 s2 _ [B1 [B2 [B3 [B4 B5]]]] H1. destruct (scan_broke _ _ _ _ B2 LE H1) as [G1 [G2 G3]].
    rewrite G1, G2, G3. ands; auto.
    - unfold scan_leaf in H1. destruct (sc_stop s1); [injection H1 as <-; auto|]. destruct pl as [pos id].
      apply rbind_ok in H1. destruct H1 as [nd [A H1]]. apply rbind_ok in H1. destruct H1 as [ok [CC H1]].
      destruct ok; cbn [negb] in H1; [|injection H1 as <-; auto]. rewrite B2, (proj2 (Z.leb_le _ _) LE) in H1. injection H1 as <-. auto.
    - unfold scan_leaf in H1. destruct (sc_stop s1); [injection H1 as <-; auto|]. destruct pl as [pos id].
      apply rbind_ok in H1. destruct H1 as [nd [A H1]]. apply rbind_ok in H1. destruct H1 as [ok [CC H1]].
      destruct ok; cbn [negb] in H1; [|injection H1 as <-; auto]. rewrite B2, (proj2 (Z.leb_le _ _) LE) in H1. injection H1 as <-. auto. }
  destruct G as [G1 [G2 [G3 [G4 G5]]]]. cbv zeta in H. rewrite G1 in H. cbn [rbind] in H. apply rbind_ok in H. destruct H as [d [_ H]]. injection H as <- <- <-. auto.
Qed.
End Limits.

Lemma broke_stump P M c a e t b : built P M c a e t -> ta_budget a = Some b -> (b <= 0)%Z -> train_rows a <> [] ->
  t_leaves t = [0] /\ t_splits t = 0 /\ t_queries t = 0.
Proof.
  intros HB EB LE NE. destruct HB as (t0 & e0 & e1 & HN & HF). destruct (fit_spec _ _ _ _ _ _ HF) as [d [fuel H]].
  destruct (new_spec _ _ _ _ _ _ HN) as (nd & e2 & _ & ET & _). clear HN HF.
  assert (S1 : t_leaves (start_tree t0 d) = [0] /\ t_splits (start_tree t0 d) = 0 /\ t_queries (start_tree t0 d) = 0 /\ t_budget (start_tree t0 d) = Some b)
    by (rewrite ET; cbn; auto). destruct S1 as [S1 [S2 [S3 S4]]].
  destruct fuel; cbn [fit_loop] in H; apply rbind_ok in H; destruct H as [stop [_ H]]; destruct stop; try discriminate H.
  1,2 : apply ok_pair_inv in H; destruct H as [<- _]; auto.
  apply rbind_ok in H. destruct H as [[[t1 e3] cont] [ES H]]. destruct (step_broke _ _ _ _ _ _ _ _ S4 LE ES) as [-> [G1 [G2 G3]]].
  apply ok_pair_inv in H. destruct H as [<- _]. rewrite G1, G2, G3. auto.
Qed.

(** ** Completeness of the search *)
Lemma xlt_chain x y w : xlt w y = true -> xlt x y = false -> xlt x w = false.
Proof.
  destruct x as [x| | |], y as [y| | |], w as [w| | |]; cbn; try discriminate; auto. intros H1 H2. apply qlt_spec in H1. apply qlt_false in H2.
  apply qlt_false. qlra.
Qed.
Lemma xlt_irrefl x : xlt x x = false.
Proof. destruct x; cbn; auto. apply qlt_false. apply Qcle_refl. Qed.
Lemma xlt_stop x y m : xlt y PInf = true \/ y = PInf -> xlt x y = false -> xlt y (Fin m) = false -> xlt x (Fin m) = false.
Proof.
  destruct x as [x| | |], y as [y| | |]; cbn; try (intros [?|?]; discriminate); try discriminate; auto. intros _ H1 H2. apply qlt_false in H1, H2. apply qlt_false. qlra.
Qed.

Section Search.
Context (M : math) (c : tcfg) (D : list (list Qc)) (L : list Qc) (FS I0 : list nat) (b0 : option Z) (N0 : nat).
Notation inv := (tinv M c D L FS I0 b0).

(** The weighted test of check_splittable. *)
Definition weighted (nd : node) (x : xn) : bool := xlt (xdiv (xmul x (Fin (Nq (nd_n nd)))) (Fin (Nq N0))) (Fin (tc_min_imp c)).
(** Why a leaf is not split. *)
Definition hopeless (nd : node) : Prop :=
  check_constraints c nd = Ok false \/
  (nd_computed nd = true /\ (nd_red nd = None \/ exists x, nd_red nd = Some x /\ weighted nd x = false)).
Definition flags (t : tree) : Prop :=
  t_n t = N0 /\ forall id nd, node_at t id nd -> nd_left nd = None -> nd_splittable nd = Some false -> hopeless nd.
Definition cur (b : option (nat * nat * xn)) : xn := match b with None => PInf | Some (_, _, y) => y end.
Definition handled (s : scan) (id : nat) : Prop :=
  exists nd, node_at (sc_tree s) id nd /\ nd_left nd = None /\
    (hopeless nd \/ (nd_computed nd = true /\ exists x, nd_red nd = Some x /\ xlt x (cur (sc_best s)) = false)).

Lemma split_test nd e b nd' e' t : nd_computed nd = true -> t_n t = N0 -> check_splittable M c t nd e = Ok (b, nd', e') ->
  nd' = nd /\ (b = false -> hopeless nd).
Proof.
  intros C TN H. unfold check_splittable in H. apply rbind_ok in H. destruct H as [ok [CC H]].
  destruct ok; cbn [negb] in H; [|apply ok_pair_inv in H; destruct H as [H _]; injection H as <- <-; split; auto; intros _; now left].
  apply rbind_ok in H. destruct H as [[[n1 o1] e2] [E1 H]]. unfold calculate_best_split in E1. rewrite C in E1. injection E1 as <- <- <-.
  destruct (nd_red nd) as [x|] eqn:RX.
  - unfold calculate_best_split in H. rewrite C in H. cbn [rbind] in H. rewrite RX in H. cbn [opt_res rbind] in H. rewrite TN in H.
    apply ok_pair_inv in H. destruct H as [H _]. injection H as <- <-. split; auto. intros W. right. split; auto. right. exists x. auto.
  - apply ok_pair_inv in H. destruct H as [H _]. injection H as <- <-. split; auto. intros _. right. auto.
Qed.

Lemma hopeless_shape nd nd' : same_shape nd nd' -> nd_computed nd' = nd_computed nd -> nd_red nd' = nd_red nd -> hopeless nd -> hopeless nd'.
Proof.
  intros S C R. unfold hopeless, weighted. rewrite (constraints_shape c nd nd' S), C, R, (sf_n _ _ (ss_frame _ _ S)). auto.
Qed.

Definition broke (b : option Z) : bool := match b with None => false | Some b => (b <=? 0)%Z end.
(** What evaluating a leaf may change in it. *)
Definition progress (nd nd' : node) : Prop :=
  same_shape nd nd' /\ (nd_computed nd = true \/ check_constraints c nd = Ok false -> nd_computed nd' = nd_computed nd /\ nd_red nd' = nd_red nd) /\
  (check_constraints c nd = Ok true -> nd_computed nd' = true).

Lemma scan_search s pos id s' : inv (sc_tree s) -> flags (sc_tree s) -> (sc_best s = None \/ xlt (cur (sc_best s)) PInf = true) ->
  In id (t_leaves (sc_tree s)) -> sc_stop s = false -> broke (t_budget (sc_tree s)) = false ->
  scan_leaf M c s (pos, id) = Ok s' ->
  sc_stop s' = false /\ flags (sc_tree s') /\ (sc_best s' = None \/ xlt (cur (sc_best s')) PInf = true) /\
  handled s' id /\ (forall j, j <> id -> handled s j -> handled s' j) /\
  exists nd nd', node_at (sc_tree s) id nd /\ progress nd nd' /\
    (forall j x, node_at (sc_tree s') j x <-> (j = id /\ x = nd') \/ (j <> id /\ node_at (sc_tree s) j x)) /\
    (t_budget (sc_tree s) = None \/ nd_computed nd = true \/ check_constraints c nd = Ok false -> t_budget (sc_tree s') = t_budget (sc_tree s)).
Proof.
  intros T [TN FL] HB IL NS BN H. unfold scan_leaf in H. rewrite NS in H. unfold broke in BN. rewrite BN in H.
  apply rbind_ok in H. destruct H as [nd [A H]]. apply nth_res_ok in A. change (node_at (sc_tree s) id nd) in A.
  assert (LF : nd_left nd = None).
  { apply (ti_leaves _ _ _ _ _ _ _ _ T) in IL. destruct IL as [x [H1 H2]]. unfold node_at in *. congruence. }
  pose proof (ti_node _ _ _ _ _ _ _ _ T _ _ A) as N.
  apply rbind_ok in H. destruct H as [ok [CC H]]. destruct ok; cbn [negb] in H.
  2:{ injection H as <-. cbn [sc_tree sc_best sc_stop]. pose proof (node_at_put (sc_tree s) id (with_splittable nd false)) as NP.
      assert (HL : hopeless (with_splittable nd false)) by (left; exact CC).
      ands; auto.
      - split; auto. intros j x Ax Lx Sx. apply (NP j nd A) in Ax. destruct Ax as [[-> ->]|[NE Ax]]; eauto.
      - exists (with_splittable nd false). split; [apply (NP id nd A); auto|]. auto.
      - intros j NE [x [Ax Hx]]. exists x. split; auto. apply (NP j nd A). auto.
      - exists nd, (with_splittable nd false). split; auto. split; [split; [apply splittable_shape|split; [auto|congruence]]|]. split; [intros j x; apply (NP j nd A)|auto]. }
  apply rbind_ok in H. destruct H as [[[nd1 red] e1] [EB H]].
  destruct (best_split_ok _ _ _ _ _ _ _ _ _ _ _ _ N LF (or_intror CC) EB) as [K1 [K2 [K3 [K4 [K5 K6]]]]].
  set (t2 := if nd_computed nd then put_node (sc_tree s) id nd1 else pay (put_node (sc_tree s) id nd1) (nd_queries nd1)) in *.
  assert (N2 : t_nodes t2 = t_nodes (put_node (sc_tree s) id nd1) /\ t_n t2 = N0 /\ (t_budget (sc_tree s) = None \/ nd_computed nd = true -> t_budget t2 = t_budget (sc_tree s))).
  { unfold t2. destruct (nd_computed nd); cbn; ands; auto. intros [Z|Z]; [now rewrite Z|discriminate]. }
  destruct N2 as [N2 [N2' N2'']]. clearbody t2.
  apply rbind_ok in H. destruct H as [[[spl nd3] e3] [EQ H]]. injection H as <-. cbn [sc_tree sc_best sc_stop].
  assert (K : same_shape nd1 nd3 /\ nd_red nd3 = nd_red nd1 /\ nd_computed nd3 = nd_computed nd1 /\ nd_splittable nd3 = Some spl /\ (spl = false -> hopeless nd1)).
  { destruct (nd_splittable nd1) as [b|] eqn:SP.
    - injection EQ as <- <- <-. ands; auto using same_shape_refl. intros ->. 
      assert (HN : hopeless nd) by (apply (FL id); auto; congruence). destruct HN as [HN|[HC HN]]; [congruence|]. destruct (K1 HC) as [-> _]. right. auto.
    - apply rbind_ok in EQ. destruct EQ as [[[b nd2] e2] [EC EQ]]. destruct (split_test _ _ _ _ _ _ K4 N2' EC) as [-> HH].
      injection EQ as <- <- <-. ands; auto using splittable_shape. }
  destruct K as [J1 [J2 [J3 [J4 J5]]]].
  assert (NP : forall j x, node_at (put_node t2 id nd3) j x <-> (j = id /\ x = nd3) \/ (j <> id /\ node_at (sc_tree s) j x)).
  { assert (A2 : node_at t2 id nd1). { unfold node_at. rewrite N2. apply (node_at_put (sc_tree s) id nd1 id nd A nd1). auto. }
    intros j x. rewrite (node_at_put t2 id nd3 j nd1 A2). unfold node_at at 1. rewrite N2. change (nth_error (t_nodes (put_node (sc_tree s) id nd1)) j = Some x) with (node_at (put_node (sc_tree s) id nd1) j x).
    rewrite (node_at_put (sc_tree s) id nd1 j nd A x). split; intros [Q|[Q1 Q2]]; auto. destruct Q2 as [[? _]|[_ Q2]]; [contradiction|auto]. }
  set (best := match red with Some x => if xlt x match sc_best s with Some (_, _, y) => y | None => PInf end && spl then Some (pos, id, x) else sc_best s | None => sc_best s end) in *.
  assert (HB' : (best = sc_best s) \/ exists x, red = Some x /\ best = Some (pos, id, x) /\ xlt x (cur (sc_best s)) = true).
  { unfold best. destruct red as [x|]; auto. destruct (xlt x match sc_best s with Some (_, _, y) => y | None => PInf end) eqn:X; cbn [andb]; auto. destruct spl; auto. right. exists x. ands; auto. }
  assert (KEEP : forall x, xlt x (cur (sc_best s)) = false -> xlt x (cur best) = false).
  { intros x X. destruct HB' as [-> |[w [_ [-> W]]]]; auto. cbn [cur]. eapply xlt_chain; eauto. }
  assert (LF3 : nd_left nd3 = None) by (rewrite (ss_left _ _ J1), (ss_left _ _ K3); auto).
  ands; auto.
  - split; [cbn; auto|]. intros j x Ax Lx Sx. apply NP in Ax. destruct Ax as [[-> ->]|[NE Ax]]; [|eauto].
    eapply hopeless_shape; eauto. apply J5. congruence.
  - destruct HB' as [-> |[w [_ [-> W]]]]; auto. right. cbn [cur]. destruct w as [w| | |]; auto; destruct (cur (sc_best s)); discriminate W.
  - exists nd3. split; [apply NP; auto|]. split; auto. cbn [sc_best]. destruct spl.
    + rewrite J3, K4. destruct red as [x|]; [|left; right; rewrite J3, K4, J2, <- K5; auto]. right. split; auto. exists x. split; [congruence|].
      unfold best. destruct (xlt x match sc_best s with Some (_, _, y) => y | None => PInf end) eqn:X; cbn [andb cur]; [apply xlt_irrefl|]. exact X.
    + left. eapply hopeless_shape; eauto.
  - intros j NE [x [Ax [Lx Hx]]]. exists x. split; [apply NP; auto|]. split; auto. destruct Hx as [Hx|[C [y [Ry Hy]]]]; auto. right. split; auto. exists y. auto.
  - exists nd, nd3. split; auto. split; [split; [eapply same_shape_trans; eauto|]|].
    + rewrite J3, J2, K4. split; auto. intros [Z|Z]; [|congruence]. destruct (K1 Z) as [-> _]. auto.
    + split; [exact NP|]. intros [Z|[Z|Z]]; [apply N2''; auto|apply N2''; auto|congruence].
Qed.

Lemma scan_all_search t e s : inv t -> flags t -> t_budget t = None ->
  foldM (scan_leaf M c) {| sc_tree := t; sc_env := e; sc_best := None; sc_stop := false |} (combine (seq 0 (length (t_leaves t))) (t_leaves t)) = Ok s ->
  flags (sc_tree s) /\ (forall id, In id (t_leaves t) -> handled s id) /\ (sc_best s = None \/ xlt (cur (sc_best s)) PInf = true) /\ t_budget (sc_tree s) = None.
Proof.
  intros T FL BN.
  assert (G : forall k s0 s', scan_ok M c D L FS I0 b0 t s0 -> flags (sc_tree s0) -> t_budget (sc_tree s0) = None -> sc_stop s0 = false ->
     (sc_best s0 = None \/ xlt (cur (sc_best s0)) PInf = true) -> k <= length (t_leaves t) ->
     (forall p id, nth_error (t_leaves t) p = Some id -> p < k -> handled s0 id) ->
     foldM (scan_leaf M c) s0 (combine (seq k (length (t_leaves t) - k)) (skipn k (t_leaves t))) = Ok s' ->
     flags (sc_tree s') /\ (forall id, In id (t_leaves t) -> handled s' id) /\ (sc_best s' = None \/ xlt (cur (sc_best s')) PInf = true) /\ t_budget (sc_tree s') = None).
  { intros k. remember (length (t_leaves t) - k) as m eqn:Em. revert k Em. induction m as [|m IH]; intros k Em s0 s' SO F0 B0 NS HB LE HP H.
    - cbn in H. injection H as <-. ands; auto. intros id I. apply In_nth_error in I. destruct I as [p Ip]. apply (HP p); auto.
      assert (p < length (t_leaves t)) by (apply nth_error_Some; congruence). lia.
    - assert (EK : exists id, nth_error (t_leaves t) k = Some id). { destruct (nth_error (t_leaves t) k) eqn:Z; [eauto|]. apply nth_error_None in Z. lia. }
      destruct EK as [id Eid]. rewrite (skipn_nth_cons k _ _ Eid) in H. cbn [seq combine] in H. cbn [foldM] in H. apply rbind_ok in H. destruct H as [s1 [E1 H]].
      pose proof SO as [T0 EL _ _ _].
      destruct (scan_search s0 k id s1) as [G1 [G3 [G4 [G5 [G6 [nd0 [nd0' [_ [_ [_ G2]]]]]]]]]]; auto. { rewrite EL. eapply nth_error_In; eauto. } { rewrite B0. reflexivity. }
      rewrite B0 in G2. specialize (G2 (or_introl eq_refl)).
      apply (IH (S k)) with (s0 := s1); auto; try lia.
      + eapply scan_leaf_ok; eauto.
      + intros p j Ep Lp. destruct (Nat.eq_dec p k) as [->|NE]; [congruence|]. apply G6; [|apply (HP p); auto; lia].
        intros ->. apply NE. pose proof (ti_nodup _ _ _ _ _ _ _ _ T) as ND. rewrite NoDup_nth_error in ND. apply ND; [apply nth_error_Some; congruence|congruence]. }
  intros H. apply (G 0 {| sc_tree := t; sc_env := e; sc_best := None; sc_stop := false |}); auto; try lia.
  - constructor; cbn; auto.
  - rewrite Nat.sub_0_r. exact H.
Qed.

Lemma handled_end t e t' e' : inv t -> flags t -> t_budget t = None -> fit_step M c t e = Ok (t', e', false) ->
  forall id, In id (t_leaves t') -> exists nd, node_at t' id nd /\ nd_left nd = None /\
    (hopeless nd \/ (nd_computed nd = true /\ exists x, nd_red nd = Some x /\ xlt x (Fin (tc_min_imp c)) = false)).
Proof.
  intros T FL BN H. unfold fit_step in H. apply rbind_ok in H. destruct H as [s [ES H]]. cbv zeta in H.
  destruct (scan_all_search _ _ _ T FL BN ES) as [FL' [HA [HB BN']]]. destruct (scan_ok_all _ _ _ _ _ _ _ _ _ _ T ES) as [T1 L1 S1 NN1 B1].
  apply rbind_ok in H. destruct H as [[[t3 e3] cont] [EC H]]. apply rbind_ok in H. destruct H as [d [_ H]]. injection H as <- <- ->.
  assert (G : t3 = sc_tree s /\ (sc_best s = None \/ xlt (cur (sc_best s)) (Fin (tc_min_imp c)) = false)).
  { destruct (sc_best s) as [[[pos id] x]|]; [|injection EC as <- _; auto]. destruct (xlt x (Fin (tc_min_imp c))) eqn:X; [|injection EC as <- _; auto].
    exfalso. apply rbind_ok in EC. destruct EC as [te [_ EC]]. apply rbind_ok in EC. destruct EC as [nd [_ EC]]. apply ok_pair_inv in EC. destruct EC as [_ EC]. discriminate EC. }
  destruct G as [-> G]. cbn [set_depth t_leaves]. rewrite L1. intros id I. destruct (HA id I) as [nd [A [LF HH]]]. exists nd. split; [exact A|]. split; auto.
  destruct HH as [HH|[C [x [RX X]]]]; auto. right. split; auto. exists x. split; auto.
  destruct HB as [HB|HB]; [rewrite HB in X; destruct x; auto; discriminate X|]. destruct G as [G|G]; [rewrite G in HB; discriminate HB|]. exact (xlt_stop _ _ _ (or_introl HB) X G).
Qed.

(** Splitting keeps the flags of the other leaves; the new leaves have none. *)
Lemma flags_step t e t' e' : inv t -> flags t -> t_budget t = None -> fit_step M c t e = Ok (t', e', true) -> flags t' /\ t_budget t' = None.
Proof.
  intros T FL BN H. unfold fit_step in H. apply rbind_ok in H. destruct H as [s [ES H]]. cbv zeta in H.
  destruct (scan_all_search _ _ _ T FL BN ES) as [[FN FL'] [HA [HB BN']]]. destruct (scan_ok_all _ _ _ _ _ _ _ _ _ _ T ES) as [T1 L1 S1 NN1 B1].
  apply rbind_ok in H. destruct H as [[[t3 e3] cont] [EC H]]. apply rbind_ok in H. destruct H as [d [_ H]]. injection H as <- <- ->.
  destruct (sc_best s) as [[[pos id] x]|]; [|injection EC; discriminate]. destruct (xlt x (Fin (tc_min_imp c))) eqn:X; [|injection EC; discriminate].
  destruct B1 as [P [nd [A [LF [CC [RX SP]]]]]].
  apply rbind_ok in EC. destruct EC as [[t2 e2] [E2 EC]]. cbn [fst snd] in EC. apply rbind_ok in EC. destruct EC as [nd2 [A2 EC]]. apply nth_res_ok in A2.
  apply ok_pair_inv in EC. destruct EC as [EC _]. injection EC as <- <-.
  destruct (fit_step_split _ _ _ _ _ _ _ _ _ _ _ _ _ _ _ T1 P A LF CC RX X E2) as [nl [nr [nd' [TE [A' [EN' [TI NW]]]]]]].
  assert (LT : id < length (t_nodes (sc_tree s))) by (apply nth_error_Some; unfold node_at in A; congruence).
  assert (E2n : nd2 = nd').  { cbn [inc_splits t_nodes] in A2. unfold node_at in A'. congruence. } subst nd2.
  split; [|rewrite TE; exact BN']. split; [rewrite TE; exact FN|].
  intros j xx Ax Lx Sx. unfold node_at in Ax. cbn [set_depth set_leaves put_node set_nodes inc_splits t_nodes] in Ax. rewrite TE in Ax. cbn [set_nodes t_nodes] in Ax.
  rewrite set_nth_nth, !set_nth_app_nth, Nat.eqb_refl in Ax by auto. destruct (Nat.eqb_spec j id) as [->|NE].
  - injection Ax as <-. rewrite EN' in Lx. cbn in Lx. discriminate Lx.
  - destruct (Nat.ltb_spec j (length (t_nodes (sc_tree s)))); [eapply FL'; eauto|].
    exfalso. destruct (j - length (t_nodes (sc_tree s))) as [|[|k]]; cbn in Ax; [injection Ax as <-; destruct NW as [? [? _]]; congruence|injection Ax as <-; destruct NW as [? [? _]]; congruence|destruct k; discriminate Ax].
Qed.

Lemma loop_search fuel : forall t e t' e', inv t -> flags t -> t_budget t = None -> fit_loop M c fuel t e = Ok (t', e') ->
  tc_max_leaves c = Some (length (t_leaves t')) \/
  forall id, In id (t_leaves t') -> exists nd, node_at t' id nd /\ nd_left nd = None /\
    (hopeless nd \/ (nd_computed nd = true /\ exists x, nd_red nd = Some x /\ xlt x (Fin (tc_min_imp c)) = false)).
Proof.
  induction fuel as [|fuel IH]; intros t e t' e' T FL BN H; cbn [fit_loop] in H; apply rbind_ok in H; destruct H as [stop [ES H]];
    assert (FULL : stop = true -> tc_max_leaves c = Some (length (t_leaves t))) by
      (intros ->; destruct (tc_max_leaves c) as [m|]; [|discriminate ES]; destruct (Nat.eqb_spec (length (t_leaves t)) m) as [->|]; [reflexivity|destruct (m <? _); discriminate ES]).
  - destruct stop; [|discriminate H]. apply ok_pair_inv in H. destruct H as [<- _]. auto.
  - destruct stop; [apply ok_pair_inv in H; destruct H as [<- _]; auto|]. apply rbind_ok in H. destruct H as [[[t1 e1] cont] [E1 H]].
    destruct cont; [|apply ok_pair_inv in H; destruct H as [<- _]; right; eapply handled_end; eauto].
    destruct (flags_step _ _ _ _ T FL BN E1) as [FL1 BN1]. destruct (fit_step_tinv _ _ _ _ _ _ _ _ _ _ _ _ T E1) as [T1 _]. eapply IH; eauto.
Qed.
End Search.

(** ** Optimality of the recorded splits *)
Lemma combine_maps {A B C} (g : A -> B) (h : A -> C) l : combine (map g l) (map h l) = map (fun x => (g x, h x)) l.
Proof. induction l; cbn; congruence. Qed.
Lemma filter_map_comm {A B} (p : B -> bool) (g : A -> B) l : filter p (map g l) = map g (filter (fun x => p (g x)) l).
Proof. induction l as [|x l IH]; cbn; auto. destruct (p (g x)); cbn; congruence. Qed.
Lemma reduction_map {A} imp (g h : A -> row) f s v (l : list A) :
  (forall x, value_of f (g x) = value_of s (h x)) -> (forall x, snd (g x) = snd (h x)) ->
  reduction imp (map g l) f v = reduction imp (map h l) s v.
Proof.
  intros H1 H2. assert (G : forall x, is_left f v (g x) = is_left s v (h x)) by (intros x; unfold is_left; now rewrite H1).
  unfold reduction, left_part, right_part, labels_of. rewrite !filter_map_comm, !map_length, !map_map.
  rewrite (filter_ext _ _ G). rewrite (filter_ext (fun x => negb (is_left f v (g x))) (fun x => negb (is_left s v (h x)))) by (intros x; now rewrite G).
  rewrite !(map_ext (fun x => snd (g x)) (fun x => snd (h x))) by auto. reflexivity.
Qed.
Lemma candidates_values bt B mm mm' data data' f s E :
  feature_values data f = feature_values data' s -> (forall lo hi, range_of mm data f lo hi <-> range_of mm' data' s lo hi) ->
  candidates bt B mm data f E <-> candidates bt B mm' data' s E.
Proof.
  intros H1 H2. destruct bt; cbn [candidates]; try tauto.
  - split; intros [lo [hi [R G]]]; exists lo, hi; (split; [now apply H2|auto]).
  - now rewrite H1.
  - now rewrite H1.
Qed.

Section Optimal.
Context (P : prng) (M : math) (c : tcfg) (a : targs) (e : env) (t : tree) (W : nat).
Context (TR : trainable c a W) (HB : built P M c a e t).
Notation D := (ta_data a).
Notation L := (ta_labels a).
Notation nok := (node_ok M c D L (train_feats a) (train_rows a)).

Lemma built_fine : fine t.
Proof.
  destruct HB as (t0 & e0 & e1 & HN & HF). destruct (fit_spec _ _ _ _ _ _ HF) as [d [fuel H]].
  destruct (new_spec _ _ _ _ _ _ HN) as (nd & e2 & ENN & ET & _).
  assert (RD : nd_dd nd = ta_dd a).
  { unfold node_new in ENN. apply rbind_ok in ENN. destruct ENN as [[fs g] [_ Q]]. apply rbind_ok in Q. destruct Q as [_ [_ Q]]. apply rbind_ok in Q. destruct Q as [dd [_ Q]].
    apply rbind_ok in Q. destruct Q as [ll [_ Q]]. apply rbind_ok in Q. destruct Q as [mm [_ Q]]. apply rbind_ok in Q. destruct Q as [cs [_ Q]]. apply ok_pair_inv in Q. destruct Q as [<- _]. reflexivity. }
  assert (F0 : exists d fuel, dd_fine d /\ fit_loop M c fuel (start_tree t0 d) e0 = Ok (t, e1)).
  { unfold tree_fit in HF. cbn [rbind] in HF. apply rbind_ok in HF. destruct HF as [t1 [E1 HF]]. destruct (tc_splitter c); try discriminate HF.
    match type of E1 with (if ?b then _ else _) = _ => destruct b end.
    - apply rbind_ok in E1. destruct E1 as [dd [Ed E1]]. injection E1 as <-. exists (Some dd). eexists. split; [|exact HF].
      unfold data_to_discrete in Ed. apply rbind_ok in Ed. destruct Ed as [r0 [_ Ed]]. apply rbind_ok in Ed. destruct Ed as [it [_ Ed]]. injection Ed as <-. reflexivity.
    - injection E1 as <-. exists (t_dd t0). eexists. split; [|exact HF]. rewrite ET. apply (tr_dd _ _ _ TR). }
  clear d fuel H HF. destruct F0 as [d [fuel [DF H]]].
  assert (FS : fine (start_tree t0 d)). { split; [exact DF|]. rewrite ET. cbn. constructor; auto. rewrite RD. apply (tr_dd _ _ _ TR). }
  revert H FS. generalize (start_tree t0 d) e0. clear. induction fuel as [|fuel IH]; intros u e0 H F; cbn [fit_loop] in H; apply rbind_ok in H; destruct H as [stop [_ H]].
  - destruct stop; [|discriminate H]. apply ok_pair_inv in H. destruct H as [<- _]. auto.
  - destruct stop; [apply ok_pair_inv in H; destruct H as [<- _]; auto|]. apply rbind_ok in H. destruct H as [[[t1 e2] cont] [E1 H]].
    pose proof (fine_step _ _ _ _ _ _ _ F E1) as F1. destruct cont; [eauto|]. apply ok_pair_inv in H. destruct H as [<- _]. auto.
Qed.
Lemma built_dd id nd : node_at t id nd -> dd_fine (nd_dd nd).
Proof. destruct built_fine as [_ F]. rewrite Forall_forall in F. intros A. apply F. eapply nth_error_In; eauto. Qed.

Lemma node_change nd bins f s v : nok nd -> nth_error (nd_feats nd) f = Some s ->
  reduction (impurity M (node_cfg c nd bins (tc_crit c))) (combine (node_data a nd) (node_labels a nd)) f v = split_change M c a (nd_idcs nd) s v.
Proof.
  intros N Es. unfold node_data, node_labels, labels_at. rewrite combine_maps. unfold split_change, picked.
  change (impurity M (node_cfg c nd bins (tc_crit c))) with (tree_impurity M c). apply reduction_map; auto. intros i. unfold value_of. cbn [fst].
  apply nth_error_nth. now rewrite nth_error_map, Es.
Qed.
Lemma node_thresholds nd f s E : nok nd -> nth_error (nd_feats nd) f = Some s ->
  candidates (tc_bin c) (nbins (node_cfg c nd (node_bins c nd) (tc_crit c)) (node_data a nd)) (nd_minmax nd) (node_data a nd) f E <-> thresholds c a (nd_idcs nd) s E.
Proof.
  intros N Es. unfold thresholds.
  replace (nbins (node_cfg c nd (node_bins c nd) (tc_crit c)) (node_data a nd)) with (match tc_bin c with IDENTITY => length (nd_idcs nd) | _ => if tc_log_split c then Nat.log2 (length (nd_idcs nd)) + 1 else tc_nb c end)
    by (unfold nbins, node_bins, node_data; cbn; rewrite map_length; reflexivity).
  assert (FV : feature_values (node_data a nd) f = feature_values (map (fun i => nth i D []) (nd_idcs nd)) s).
  { unfold feature_values, node_data. rewrite !map_map. apply map_ext. intros i. apply nth_error_nth. now rewrite nth_error_map, Es. }
  apply candidates_values; auto. intros lo hi. pose proof (mm_spec _ _ _ (no_mm _ _ _ _ _ _ _ N)) as MM. destruct (tc_minmax c) as [[mn mx]|].
  - destruct MM as [-> MI]. cbn [range_of]. rewrite !nth_error_map, Es. cbn. destruct (MI s (nth_error_In _ _ Es)) as [L1 L2].
    rewrite (nth_error_nth' mn 0%Qc L1), (nth_error_nth' mx 0%Qc L2). tauto.
  - rewrite MM. cbn [range_of]. now rewrite FV.
Qed.
Lemma bins_from_ok nd : bins_ok c -> eligible c L nd ->
  match tc_bin c with LINEAR => 2 <= node_bins c nd | IDENTITY => True | RANDOM => 1 <= node_bins c nd | _ => False end.
Proof.
  intros BO [_ [_ VAR]].
  assert (NI : 2 <= length (nd_idcs nd)).
  { destruct VAR as [x [y [I1 [I2 NE]]]]. unfold labels_at in *. destruct (nd_idcs nd) as [|i [|j l]]; cbn in *; try tauto; try lia.
    destruct I1 as [<-|[]], I2 as [<-|[]]. contradiction. }
  assert (1 <= Nat.log2 (length (nd_idcs nd))) by (change 1 with (Nat.log2 2); now apply Nat.log2_le_mono).
  unfold bins_ok in BO. unfold node_bins. destruct (tc_bin c); auto; destruct (tc_log_split c); destruct BO; try lia; discriminate.
Qed.

(** The answer the solver gave for a node: right for the thresholds it considered. *)
Lemma node_answer nd nd0 b e0 out bins e1 : tc_solver c = EXACT -> bins_ok c -> nok nd -> dd_fine (nd_dd nd) -> eligible c L nd -> posed c D L nd nd0 ->
  node_solve M c nd0 b e0 = Ok (out, bins, e1) ->
  exists E, (forall f s, nth_error (nd_feats nd) f = Some s -> thresholds c a (nd_idcs nd) s (E f)) /\
    match out with
    | Found f v r q => exists s, nth_error (nd_feats nd) f = Some s /\ In v (E f) /\ r = Fin (split_change M c a (nd_idcs nd) s v) /\
        (split_change M c a (nd_idcs nd) s v < 0)%Qc /\
        forall f' s' v', nth_error (nd_feats nd) f' = Some s' -> In v' (E f') -> (split_change M c a (nd_idcs nd) s v <= split_change M c a (nd_idcs nd) s' v')%Qc
    | NoSplit q => forall f' s' v', nth_error (nd_feats nd) f' = Some s' -> In v' (E f') -> (0 <= split_change M c a (nd_idcs nd) s' v')%Qc
    end.
Proof.
  intros SV BO N DF EG PO H. rewrite (solve_exact_eq M c a nd nd0 b e0 N PO SV) in H. apply rbind_ok in H. destruct H as [[out' e1'] [H1 H2]]. cbn [fst snd] in H2.
  assert (EO : out' = out) by congruence. subst out'. clear H2.
  pose proof (node_solvable M c a W TR nd (node_bins c nd) (tc_crit c) N DF (or_introl eq_refl) (bins_from_ok nd BO EG)) as S.
  destruct (exact_optimal _ _ _ _ S _ _ _ _ _ H1) as [E [HC RA]]. exists E. split.
  - intros f s Es. apply (node_thresholds nd f s (E f) N Es). apply HC. apply nth_error_Some. congruence.
  - destruct out as [f v r q|q].
    + destruct RA as [Hf [k [Ek [-> [LT OPT]]]]]. destruct (nth_error (nd_feats nd) f) as [s|] eqn:Es; [|apply nth_error_None in Es; lia]. exists s. rewrite (node_change nd _ f s v N Es) in *.
      ands; auto. { eapply nth_error_In; eauto. } intros f' s' v' Es' Iv. apply In_nth_error in Iv. destruct Iv as [k' Ek'].
      assert (Hf' : f' < length (nd_feats nd)) by (apply nth_error_Some; congruence).
      destruct (OPT f' k' v' Hf' Ek') as [LE _]. now rewrite (node_change nd _ f' s' v' N Es') in LE.
    + intros f' s' v' Es' Iv. assert (Hf' : f' < length (nd_feats nd)) by (apply nth_error_Some; congruence).
      specialize (RA f' v' Hf' Iv). now rewrite (node_change nd _ f' s' v' N Es') in RA.
Qed.

Lemma thresholds_unique I s E E' : tc_bin c = LINEAR \/ tc_bin c = IDENTITY -> thresholds c a I s E -> thresholds c a I s E' -> E = E'.
Proof. intros NR. unfold thresholds. apply candidates_unique. exact NR. Qed.

(** *** C74 *)
Lemma fitted_optimal id nd : tc_solver c = EXACT -> bins_ok c -> node_at t id nd -> nd_left nd <> None ->
  exists s v E f, nd_sf nd = Some s /\ nd_sv nd = Some v /\ nth_error (nd_feats nd) f = Some s /\ In v (E f) /\
    nd_red nd = Some (Fin (split_change M c a (node_rows t id) s v * nd_prop nd)%Qc) /\ (split_change M c a (node_rows t id) s v < 0)%Qc /\
    (forall f' s', nth_error (nd_feats nd) f' = Some s' -> thresholds c a (node_rows t id) s' (E f')) /\
    (forall f' s' v', nth_error (nd_feats nd) f' = Some s' -> In v' (E f') ->
       (split_change M c a (node_rows t id) s v <= split_change M c a (node_rows t id) s' v')%Qc).
Proof.
  intros SV BO A H. pose proof (built_tinv P M c a e t HB (tr_rows _ _ _ TR)) as T. rewrite (rows_of t id nd A).
  destruct (ti_inner _ _ _ _ _ _ _ _ T _ _ A H) as (l & r & nl & nr & s & v & x & I1 & I2 & I3 & I4 & I4' & I5 & I6 & I7 & I8 & I9 & I10 & I11 & I12 & I13 & I14 & I15 & I16 & I17 & EG).
  pose proof (ti_node _ _ _ _ _ _ _ _ T _ _ A) as N.
  destruct (no_solved _ _ _ _ _ _ _ N s I11) as (f & v' & x' & PF & SV' & RX' & SS). assert (v' = v) by congruence. assert (x' = x) by congruence. subst v' x'.
  destruct SS as (nd0 & b & e0 & r0 & q & bins & e' & H1 & H2 & H3 & H4 & H5 & H6 & H7 & H8).
  destruct (node_answer nd nd0 b e0 _ bins e' SV BO N (built_dd _ _ A) EG (conj H2 (conj H3 (conj H4 H8))) H1) as [E [HT [s' [Es [Iv [Er [LT OPT]]]]]]].
  assert (s' = s) by congruence. subst s'. exists s, v, E, f. ands; auto. rewrite I13, H6, Er. reflexivity.
Qed.

Lemma constraints_complete nd : nok nd -> nd_left nd = None -> eligible c L nd -> check_constraints c nd = Ok true.
Proof.
  intros N LF [BD [MS VAR]]. unfold check_constraints. destruct (no_data _ _ _ _ _ _ _ N LF) as [_ EL]. rewrite EL.
  rewrite (no_n _ _ _ _ _ _ _ N). unfold below_depth in BD. destruct (tc_max_depth c); [contradiction| |]; cbn [rbind negb opt_res].
  - rewrite (proj2 (Nat.ltb_lt _ _) MS). cbn [negb]. now rewrite (varied_unique _ VAR).
  - rewrite (proj2 (Z.ltb_lt _ _) BD), (proj2 (Nat.ltb_lt _ _) MS). cbn [negb]. now rewrite (varied_unique _ VAR).
Qed.

(** *** C75 *)
Lemma fitted_exhausted id nd : tc_solver c = EXACT -> bins_ok c -> ta_budget a = None -> tc_max_leaves c <> Some (length (t_leaves t)) ->
  In id (t_leaves t) -> node_at t id nd ->
  below_depth c (nd_depth nd) -> tc_min_split c < length (node_rows t id) -> varied (labels_at L (node_rows t id)) ->
  exists E, (forall f' s', nth_error (nd_feats nd) f' = Some s' -> thresholds c a (node_rows t id) s' (E f')) /\
    (forall f' s' v', nth_error (nd_feats nd) f' = Some s' -> In v' (E f') ->
       let gain := split_change M c a (node_rows t id) s' v' in
       (0 <= gain)%Qc \/ (tc_min_imp c <= nd_prop nd * gain)%Qc \/
       (tc_min_imp c <= nd_prop nd * gain * (Nq (length (node_rows t id)) / Nq (length L)))%Qc).
Proof.
  intros SV BO BN NF IL A E1 E2 E3. rewrite (rows_of t id nd A) in *.
  destruct (built_loop P M c a e t HB (tr_rows _ _ _ TR)) as (t0 & e0 & d & fuel & e1 & HN & HL & T0 & _).
  destruct (new_spec _ _ _ _ _ _ HN) as (nd0 & e2 & ENN & ET & _).
  assert (FL : flags c (length L) (start_tree t0 d)).
  { split; [rewrite ET; reflexivity|]. intros j x Ax _ Sx. rewrite ET in Ax. unfold node_at in Ax. destruct j as [|[|j]]; cbn in Ax; try discriminate Ax. injection Ax as <-.
    unfold node_new in ENN. apply rbind_ok in ENN. destruct ENN as [[fs g] [_ Q]]. apply rbind_ok in Q. destruct Q as [_ [_ Q]]. apply rbind_ok in Q. destruct Q as [dd [_ Q]].
    apply rbind_ok in Q. destruct Q as [ll [_ Q]]. apply rbind_ok in Q. destruct Q as [mm [_ Q]]. apply rbind_ok in Q. destruct Q as [cs [_ Q]]. apply ok_pair_inv in Q. destruct Q as [<- _]. discriminate Sx. }
  assert (BS : t_budget (start_tree t0 d) = None) by (rewrite ET; cbn; auto).
  destruct (loop_search M c D L _ _ _ (length L) fuel _ _ _ _ T0 FL BS HL) as [X|X]; [contradiction|].
  destruct (X id IL) as [nd' [A' [LF HH]]]. assert (nd' = nd) by (unfold node_at in *; congruence). subst nd'.
  pose proof (built_tinv P M c a e t HB (tr_rows _ _ _ TR)) as T. pose proof (ti_node _ _ _ _ _ _ _ _ T _ _ A) as N.
  assert (EG : eligible c L nd) by (split; auto). pose proof (constraints_complete nd N LF EG) as CC.
  assert (PP : (0 < nd_prop nd)%Qc).
  { rewrite (no_prop _ _ _ _ _ _ _ N). pose proof (no_ne _ _ _ _ _ _ _ N) as NEI. assert (0 < length (nd_idcs nd)) by (destruct (nd_idcs nd); [contradiction|cbn; lia]).
    assert (0 < length (train_rows a)) by (pose proof (tr_rows _ _ _ TR); destruct (train_rows a); [contradiction|cbn; lia]).
    unfold Qcdiv. apply qmult_lt_0; [now apply Nq_pos|]. now apply qinv_pos, Nq_pos. }
  assert (LP : 0 < length L).
  { pose proof (tr_rows _ _ _ TR) as RN. pose proof (tr_rows_in _ _ _ TR) as RI. destruct (train_rows a) as [|i l]; [contradiction|]. specialize (RI i (or_introl eq_refl)). lia. }
  assert (PN : (0 <= Nq (length (nd_idcs nd)) / Nq (length L))%Qc).
  { pose proof (no_ne _ _ _ _ _ _ _ N) as NEI. unfold Qcdiv.
    apply Qclt_le_weak, qmult_lt_0; [apply Nq_pos; destruct (nd_idcs nd); [contradiction|cbn; lia]|]. apply qinv_pos, Nq_pos. exact LP. }
  assert (COMP : nd_computed nd = true /\ (nd_red nd = None \/ exists x, nd_red nd = Some x /\ (xlt x (Fin (tc_min_imp c)) = false \/ weighted c (length L) nd x = false))).
  { destruct HH as [[HH|[C [HH|[x [RX HH]]]]]|[C [x [RX HH]]]]; [congruence|auto|split; eauto|]. split; auto. right. exists x. auto. }
  destruct COMP as [C COMP]. clear HH X FL HL.
  destruct (nd_sf nd) as [s|] eqn:SF.
  - destruct (no_solved _ _ _ _ _ _ _ N s SF) as (f & v & x & PF & SV' & RX & SS).
    destruct SS as (nd1 & b & e3 & r0 & q & bins & e' & H1 & H2 & H3 & H4 & H5 & H6 & H7 & H8).
    destruct (node_answer nd nd1 b e3 _ bins e' SV BO N (built_dd _ _ A) EG (conj H2 (conj H3 (conj H4 H8))) H1) as [E [HT [s' [Es [Iv [Er [LT OPT]]]]]]].
    assert (s' = s) by congruence. subst s'. exists E. split; auto. intros f' s' v' Ef' Iv'. cbn zeta. right. specialize (OPT f' s' v' Ef' Iv').
    set (g := split_change M c a (nd_idcs nd) s v) in *. set (g' := split_change M c a (nd_idcs nd) s' v') in *.
    assert (MON : (nd_prop nd * g <= nd_prop nd * g')%Qc). { rewrite !(Qcmult_comm (nd_prop nd)). apply Qcmult_le_compat_r; auto. now apply Qclt_le_weak. }
    destruct COMP as [COMP|[y [RY COMP]]]; [congruence|]. assert (y = Fin (g * nd_prop nd)%Qc) by (rewrite RX in RY; injection RY as <-; rewrite H6, Er; reflexivity). subst y.
    destruct COMP as [COMP|COMP].
    + left. cbn in COMP. apply qlt_false in COMP. eapply Qcle_trans; [exact COMP|]. now rewrite (Qcmult_comm g).
    + right. unfold weighted in COMP. rewrite (no_n _ _ _ _ _ _ _ N) in COMP. eapply Qcle_trans; [|apply Qcmult_le_compat_r; [exact MON|exact PN]].
      cbn [xmul xdiv] in COMP. assert (ZL : qeq (Nq (length L)) 0 = false) by (apply qeq_false; now apply Nq_neq0). rewrite ZL in COMP. cbn [xlt] in COMP.
      apply qlt_false in COMP. eapply Qcle_trans; [exact COMP|]. match goal with |- (?x <= ?y)%Qc => assert (Z : x = y) by (unfold Qcdiv; ring); rewrite Z; apply Qcle_refl end.
  - destruct (no_failed _ _ _ _ _ _ _ N C SF) as (nd1 & b & e3 & q & bins & e' & H1 & H2 & H3 & H4 & H5 & H6).
    destruct (node_answer nd nd1 b e3 _ bins e' SV BO N (built_dd _ _ A) EG (conj H2 (conj H3 (conj H4 H6))) H1) as [E [HT RA]].
    exists E. split; auto. intros f' s' v' Ef' Iv'. left. eapply RA; eauto.
Qed.
End Optimal.

(** ** Limits of the constructor arguments *)
Lemma leaf_limit_states P M c a e t0 e0 d t' e' m : tree_new P c a e = Ok (t0, e0) -> train_rows a <> [] ->
  tc_max_leaves c = Some m -> 1 <= m -> loop_state M c (start_tree t0 d) e0 t' e' -> length (t_leaves t') <= m.
Proof.
  intros HN NE Em M1 HS. destruct (start_inv M P c a e t0 e0 d HN NE) as [T _]. destruct (state_tinv _ _ _ _ _ _ _ _ _ _ _ HS T) as [_ G].
  apply G; auto. destruct (new_spec _ _ _ _ _ _ HN) as (nd & e2 & _ & -> & _). cbn. exact M1.
Qed.
Lemma leaf_limit_zero P M c a e t : train_rows a <> [] -> tc_max_leaves c = Some 0 -> ~ built P M c a e t.
Proof.
  intros NE Em HB. pose proof (fitted_leaf_limit P M c a e t HB NE 0 Em). destruct (ti_splits _ _ _ _ _ _ _ _ (built_tinv P M c a e t HB NE)). lia.
Qed.

Lemma no_depth_raises P M c a W e t0 e0 : trainable (with_max_depth c DInf) a W ->
  tc_max_depth c = DNone -> tc_max_leaves c <> Some 1 -> tree_new P c a e = Ok (t0, e0) -> tree_fit M c t0 (None, None) e0 = Err TypeError.
Proof.
  intros TR MD ML HN. destruct (new_spec _ _ _ _ _ _ HN) as (nd & e2 & ENN & ET & _).
  unfold tree_fit. cbn [rbind]. pose proof (tr_splitter _ _ _ TR) as SP. cbn in SP. rewrite SP.
  assert (EM : exists d, (if match tc_bin c with LINEAR | IDENTITY => false | _ => tc_make_discrete c end then
             do d <- data_to_discrete (t_data t0) 10;
             Ok {| t_data := t_data t0; t_labels := t_labels t0; t_n := t_n t0; t_dd := Some d; t_feats := t_feats t0; t_nodes := t_nodes t0; t_leaves := t_leaves t0;
                   t_budget := t_budget t0; t_queries := t_queries t0; t_splits := t_splits t0; t_depth := t_depth t0 |} else Ok t0) =
          Ok {| t_data := t_data t0; t_labels := t_labels t0; t_n := t_n t0; t_dd := d; t_feats := t_feats t0; t_nodes := t_nodes t0; t_leaves := t_leaves t0;
                   t_budget := t_budget t0; t_queries := t_queries t0; t_splits := t_splits t0; t_depth := t_depth t0 |}).
  { assert (TD : t_data t0 = ta_data a) by (rewrite ET; reflexivity).
    match goal with |- exists d, (if ?b then _ else _) = _ => destruct b end.
    - destruct (discrete_total _ _ _ TR) as [d [E1 _]]. exists (Some d). rewrite TD, E1. reflexivity.
    - exists (t_dd t0). destruct t0; reflexivity. }
  destruct EM as [d ->]. cbn [rbind]. rewrite ET. cbn [t_data t_labels t_n t_dd t_feats t_nodes t_leaves t_budget t_queries t_splits t_depth set_leaves app fit_loop length].
  pose proof (tr_leaves _ _ _ TR) as ML0. cbn in ML0.
  assert (EF : match tc_max_leaves c with None => Ok false | Some m => if 1 =? m then Ok true else if m <? 1 then Err GenericException else Ok false end = Ok false).
  { destruct (tc_max_leaves c) as [[|[|m]]|]; try congruence; reflexivity. }
  rewrite EF. cbn [rbind]. unfold fit_step. cbn [t_leaves length seq combine foldM]. unfold scan_leaf at 1. cbn [sc_stop sc_tree t_nodes nth_res nth_error rbind].
  unfold check_constraints. rewrite MD. reflexivity.
Qed.

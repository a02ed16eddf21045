(** The order in which nodes are split: among the leaves that have been evaluated, one with the
    largest recorded decrease is split first. *)
From Coq Require Import List Arith Bool ZArith QArith Qcanon Lia Permutation.
From Verif Require Import Base Num Rng Histogram Utils Criteria Solvers Tree Spec SolverSpec TreeSpec NumFacts ListFacts HistFacts DrawFacts TreeFacts CountFacts TreeThms TreeTotal TreeMore.
Import ListNotations.
Local Open Scope nat_scope.

Section Order.
Context (M : math) (c : tcfg) (D : list (list Qc)) (L : list Qc) (FS I0 : list nat) (b0 : option Z) (N0 : nat).
Notation inv := (tinv M c D L FS I0 b0).

Definition best_first (t : tree) : Prop := forall s ns k x l nl y,
  node_at t s ns -> nd_left ns = Some k -> nd_red ns = Some x ->
  node_at t l nl -> l <> s -> l < k -> (forall k', nd_left nl = Some k' -> k < k') ->
  nd_red nl = Some y -> eligible c L nl -> weighted c N0 nl y = true -> xlt y x = false.

Definition settled (nd : node) : Prop := nd_computed nd = true \/ check_constraints c nd = Ok false.
Definition ordered (t : tree) : Prop := broke (t_budget t) = true \/
  exists l1 l2, t_leaves t = l1 ++ l2 /\ (forall j nd, In j l1 -> node_at t j nd -> settled nd) /\
    (forall j nd, In j l2 -> node_at t j nd -> nd_computed nd = false) /\
    (forall j s ns k, In j l2 -> node_at t s ns -> nd_left ns = Some k -> k <= j).

(** How a scan changes the tree. *)
Definition grew (t t' : tree) : Prop :=
  forall j x', node_at t' j x' -> exists x, node_at t j x /\ same_shape x x' /\
    (nd_left x <> None -> x' = x) /\
    (nd_computed x = true -> nd_computed x' = true /\ nd_red x' = nd_red x) /\
    (nd_computed x = false -> nd_computed x' = true -> broke (t_budget t) = false).

Lemma grew_refl t : grew t t.
Proof. intros j x A. exists x. ands; auto using same_shape_refl. congruence. Qed.
Lemma grew_put t t1 t2 id nd nd' : grew t t1 -> node_at t1 id nd -> nd_left nd = None -> same_shape nd nd' ->
  (nd_computed nd = true -> nd_computed nd' = true /\ nd_red nd' = nd_red nd) ->
  (nd_computed nd = false -> nd_computed nd' = true -> broke (t_budget t) = false) ->
  (forall j x, node_at t2 j x <-> (j = id /\ x = nd') \/ (j <> id /\ node_at t1 j x)) -> grew t t2.
Proof.
  intros G A LF S C1 C2 NP j x' Ax. apply NP in Ax. destruct Ax as [[-> ->]|[NE Ax]]; [|auto].
  destruct (G _ _ A) as [x [B1 [B2 [B3 [B4 B5]]]]]. exists x. ands; auto.
  - eapply same_shape_trans; eauto.
  - intros NL. exfalso. apply NL. rewrite <- (ss_left _ _ B2). auto.
  - intros Cx. destruct (B4 Cx) as [E1 E2]. destruct (C1 E1). split; congruence.
  - intros Cx Cx'. destruct (nd_computed nd) eqn:Cn; auto.
Qed.

Lemma handled_settled s j nd : handled c N0 s j -> node_at (sc_tree s) j nd -> settled nd.
Proof.
  intros [x [A [_ H]]] B. assert (x = nd) by (unfold node_at in *; congruence). subst x. unfold settled.
  destruct H as [[H|[H _]]|[H _]]; auto.
Qed.

(** A scan that starts, or goes on, without budget changes nothing but flags. *)
Lemma scan_dead s pos id s' : inv (sc_tree s) -> flags c N0 (sc_tree s) -> In id (t_leaves (sc_tree s)) ->
  broke (t_budget (sc_tree s)) = true -> scan_leaf M c s (pos, id) = Ok s' ->
  flags c N0 (sc_tree s') /\ sc_best s' = sc_best s /\ t_budget (sc_tree s') = t_budget (sc_tree s) /\
  (s' = s \/ sc_tree s' = sc_tree s \/ exists nd nd', node_at (sc_tree s) id nd /\ nd_left nd = None /\ same_shape nd nd' /\ nd_computed nd' = nd_computed nd /\ nd_red nd' = nd_red nd /\
    forall j x, node_at (sc_tree s') j x <-> (j = id /\ x = nd') \/ (j <> id /\ node_at (sc_tree s) j x)).
Proof.
  intros T [TN FL] IL BR H. unfold scan_leaf in H. destruct (sc_stop s); [injection H as <-; ands; auto; split; auto|].
  apply rbind_ok in H. destruct H as [nd [A H]]. apply nth_res_ok in A. change (node_at (sc_tree s) id nd) in A.
  assert (LF : nd_left nd = None).
  { apply (ti_leaves _ _ _ _ _ _ _ _ T) in IL. destruct IL as [x [H1 H2]]. unfold node_at in *. congruence. }
  apply rbind_ok in H. destruct H as [ok [CC H]]. destruct ok; cbn [negb] in H.
  - unfold broke in BR. rewrite BR in H. injection H as <-. cbn [sc_tree sc_best]. ands; auto. split; auto.
  - injection H as <-. cbn [sc_tree sc_best sc_stop]. pose proof (node_at_put (sc_tree s) id (with_splittable nd false)) as NP. ands; auto.
    + split; auto. intros j x Ax Lx Sx. apply (NP j nd A) in Ax. destruct Ax as [[-> ->]|[NE Ax]]; eauto. left. exact CC.
    + right. right. exists nd, (with_splittable nd false). ands; auto using splittable_shape. intros j x. apply (NP j nd A).
Qed.

Definition seen (s : scan) (j : nat) : Prop := handled c N0 s j \/ exists nd, node_at (sc_tree s) j nd /\ nd_computed nd = false.

Lemma seen_dead s s' id nd nd' : node_at (sc_tree s) id nd -> same_shape nd nd' -> nd_computed nd' = nd_computed nd -> nd_red nd' = nd_red nd ->
  sc_best s' = sc_best s -> (forall j x, node_at (sc_tree s') j x <-> (j = id /\ x = nd') \/ (j <> id /\ node_at (sc_tree s) j x)) ->
  forall j, seen s j -> seen s' j.
Proof.
  intros A S C R B NP j [H|H].
  - left. destruct H as [x [Ax [Lx Hx]]]. destruct (Nat.eq_dec j id) as [->|NE].
    + assert (x = nd) by (unfold node_at in *; congruence). subst x. exists nd'. split; [apply NP; auto|]. split; [now rewrite (ss_left _ _ S)|].
      rewrite B, C, R. destruct Hx as [Hx|Hx]; auto. left. eapply hopeless_shape; eauto.
    + exists x. split; [apply NP; auto|]. rewrite B. auto.
  - right. destruct H as [x [Ax Cx]]. destruct (Nat.eq_dec j id) as [->|NE].
    + assert (x = nd) by (unfold node_at in *; congruence). subst x. exists nd'. split; [apply NP; auto|congruence].
    + exists x. split; [apply NP; auto|auto].
Qed.

Lemma scan_dead_all t : inv t -> forall r p s s', t_leaves t = p ++ r ->
  scan_ok M c D L FS I0 b0 t s -> flags c N0 (sc_tree s) -> grew t (sc_tree s) -> broke (t_budget (sc_tree s)) = true ->
  foldM (scan_leaf M c) s (combine (seq (length p) (length r)) r) = Ok s' ->
  flags c N0 (sc_tree s') /\ sc_best s' = sc_best s /\ t_budget (sc_tree s') = t_budget (sc_tree s) /\ grew t (sc_tree s') /\ forall j, seen s j -> seen s' j.
Proof.
  intros T r. induction r as [|id r IH]; intros p s s' EL SO F G BR H; cbn [length seq combine foldM] in H.
  - injection H as <-. ands; auto.
  - apply rbind_ok in H. destruct H as [s1 [E1 H]].
    assert (NTH : nth_error (t_leaves t) (length p) = Some id).
    { rewrite EL, nth_error_app2, Nat.sub_diag by lia. reflexivity. }
    destruct (scan_dead s (length p) id s1 (so_tree _ _ _ _ _ _ _ _ _ SO)) as [F1 [B1 [B2 C1]]]; auto.
    { rewrite (so_leaves _ _ _ _ _ _ _ _ _ SO). eapply nth_error_In; eauto. }
    assert (SO1 : scan_ok M c D L FS I0 b0 t s1) by (eapply scan_leaf_ok; eauto).
    assert (K : grew t (sc_tree s1) /\ forall j, seen s j -> seen s1 j).
    { destruct C1 as [->|[C1|[nd [nd' [A [LF [S [C [R NP]]]]]]]]]; [auto| |].
      - rewrite C1. split; auto. intros j HS. unfold seen, handled in *. now rewrite C1, B1.
      - split; [|eapply seen_dead; eauto]. apply (grew_put t (sc_tree s) (sc_tree s1) id nd nd'); auto; [intros; split; congruence|intros; congruence]. }
    destruct K as [G1 K]. destruct (IH (p ++ [id]) s1 s') as [Q1 [Q2 [Q3 [Q4 Q5]]]]; auto.
    + now rewrite <- app_assoc.
    + congruence.
    + rewrite app_length, Nat.add_1_r. exact H.
    + ands; auto; congruence.
Qed.

Lemma seen_handled s : forall j, handled c N0 s j -> seen s j. Proof. now left. Qed.

(** A scan that starts with budget left. *)
Lemma scan_alive_all t l1 l2 : inv t -> broke (t_budget t) = false -> t_leaves t = l1 ++ l2 ->
  (forall j nd, In j l1 -> node_at t j nd -> settled nd) -> (forall j nd, In j l2 -> node_at t j nd -> nd_computed nd = false) ->
  forall r p s s', t_leaves t = p ++ r ->
  scan_ok M c D L FS I0 b0 t s -> flags c N0 (sc_tree s) -> grew t (sc_tree s) -> broke (t_budget (sc_tree s)) = false -> sc_stop s = false ->
  (sc_best s = None \/ xlt (cur (sc_best s)) PInf = true) ->
  (forall j, In j p -> handled c N0 s j) -> (forall j x, In j r -> node_at (sc_tree s) j x <-> node_at t j x) ->
  foldM (scan_leaf M c) s (combine (seq (length p) (length r)) r) = Ok s' ->
  flags c N0 (sc_tree s') /\ grew t (sc_tree s') /\ (forall j, In j (t_leaves t) -> seen s' j) /\
  (broke (t_budget (sc_tree s')) = true \/ forall j, In j (t_leaves t) -> handled c N0 s' j).
Proof.
  intros T BT EL12 H1 H2 r. induction r as [|id r IH]; intros p s s' EL SO F G BR NS HB HP HR H; cbn [length seq combine foldM] in H.
  - injection H as <-. rewrite app_nil_r in EL. rewrite EL. ands; auto using seen_handled.
  - apply rbind_ok in H. destruct H as [s1 [E1 H]].
    assert (NTH : nth_error (t_leaves t) (length p) = Some id).
    { rewrite EL, nth_error_app2, Nat.sub_diag by lia. reflexivity. }
    pose proof (ti_nodup _ _ _ _ _ _ _ _ T) as ND. rewrite EL in ND. apply NoDup_remove in ND. destruct ND as [ND NI]. rewrite in_app_iff in NI.
    pose proof (so_tree _ _ _ _ _ _ _ _ _ SO) as TS. assert (IL : In id (t_leaves (sc_tree s))) by (rewrite (so_leaves _ _ _ _ _ _ _ _ _ SO); eapply nth_error_In; eauto).
    destruct (scan_search M c D L FS I0 b0 N0 s (length p) id s1) as [G1 [G2 [G3 [G4 [G5 [nd [nd' [A [[P1 [P2 P3]] [NP G6]]]]]]]]]]; auto.
    assert (LF : nd_left nd = None).
    { apply (ti_leaves _ _ _ _ _ _ _ _ TS) in IL. destruct IL as [x [X1 X2]]. unfold node_at in *. congruence. }
    assert (SO1 : scan_ok M c D L FS I0 b0 t s1) by (eapply scan_leaf_ok; eauto).
    assert (GR : grew t (sc_tree s1)). { eapply grew_put; eauto. intros C. destruct P2; auto. split; congruence. }
    assert (HP1 : forall j, In j (p ++ [id]) -> handled c N0 s1 j).
    { intros j J. apply in_app_iff in J. destruct J as [J|[<-|[]]]; auto. apply G5; auto. intros ->. tauto. }
    assert (HR1 : forall j x, In j r -> node_at (sc_tree s1) j x <-> node_at t j x).
    { intros j x J. rewrite NP, <- (HR j x) by (now right). assert (j <> id) by (intros ->; tauto). split; [intros [[? _]|[_ ?]]; [contradiction|auto]|auto]. }
    assert (EL' : t_leaves t = (p ++ [id]) ++ r) by now rewrite <- app_assoc.
    assert (LEN : S (length p) = length (p ++ [id])) by (rewrite app_length; cbn; lia). rewrite LEN in H.
    destruct (broke (t_budget (sc_tree s1))) eqn:B1; [|apply (IH (p ++ [id]) s1 s'); auto].
    assert (NSET : ~ settled nd). { intros [Z|Z]; rewrite G6 in B1 by auto; congruence. }
    assert (A0 : node_at t id nd) by (apply HR; [now left|auto]).
    assert (FR : forall j, In j r -> In j l2).
    { intros j J. rewrite EL12 in EL. destruct (app_eq_app _ _ _ _ EL) as [w [[E3 E4]|[E3 E4]]].
      - destruct w as [|w0 w]; cbn in E4; [rewrite <- E4; now right|].
        injection E4 as <- E4. exfalso. apply NSET, (H1 id); auto. rewrite E3. apply in_or_app. right. now left.
      - rewrite E4. apply in_or_app. right. now right. }
    assert (SEEN : forall j, In j (t_leaves t) -> seen s1 j).
    { intros j J. rewrite EL' in J. apply in_app_iff in J. destruct J as [J|J]; [left; auto|]. right.
      assert (IT : In j (t_leaves t)) by (rewrite EL'; apply in_or_app; auto). apply (ti_leaves _ _ _ _ _ _ _ _ T) in IT. destruct IT as [x [Ax _]].
      exists x. split; [apply HR1; auto|]. apply (H2 j); auto. }
    destruct (scan_dead_all t T r (p ++ [id]) s1 s' EL' SO1 G2 GR B1 H) as [Q1 [Q2 [Q3 [Q4 Q5]]]]. ands; auto. left. congruence.
Qed.

Lemma constraints_complete_leaf nd : node_ok M c D L FS I0 nd -> nd_left nd = None -> eligible c L nd -> check_constraints c nd = Ok true.
Proof.
  intros N LF [BD [MS VAR]]. unfold check_constraints. destruct (no_data _ _ _ _ _ _ _ N LF) as [_ EL]. rewrite EL.
  rewrite (no_n _ _ _ _ _ _ _ N). unfold below_depth in BD. destruct (tc_max_depth c); [contradiction| |]; cbn [rbind negb opt_res].
  - rewrite (proj2 (Nat.ltb_lt _ _) MS). cbn [negb]. now rewrite (varied_unique _ VAR).
  - rewrite (proj2 (Z.ltb_lt _ _) BD), (proj2 (Nat.ltb_lt _ _) MS). cbn [negb]. now rewrite (varied_unique _ VAR).
Qed.
Lemma fresh_red nd : node_ok M c D L FS I0 nd -> nd_computed nd = false -> nd_red nd = None.
Proof. intros N C. apply (no_nosplit _ _ _ _ _ _ _ N). now apply (no_fresh _ _ _ _ _ _ _ N). Qed.

Lemma best_first_grew t t' : inv t -> inv t' -> best_first t -> ordered t -> grew t t' -> best_first t'.
Proof.
  intros T T' BF OR G s ns k x l nl y As Ls Rs Al NE LT LL Rl EG WT.
  destruct (G _ _ As) as [s0 [As0 [Ss [Us _]]]]. assert (NL : nd_left s0 <> None) by (rewrite <- (ss_left _ _ Ss), Ls; discriminate).
  specialize (Us NL). subst ns. destruct (G _ _ Al) as [l0 [Al0 [Sl [Ul [Cl Dl]]]]].
  assert (EG0 : eligible c L l0). { destruct (ss_frame _ _ Sl) as [Z1 Z2 Z3 Z4 Z5 Z6 Z7 Z8 Z9]. unfold eligible in *. rewrite Z5, Z2 in EG. exact EG. }
  assert (WT0 : weighted c N0 l0 y = true). { unfold weighted in *. rewrite (sf_n _ _ (ss_frame _ _ Sl)) in WT. exact WT. }
  assert (LL0 : forall k', nd_left l0 = Some k' -> k < k') by (intros k' E; apply LL; rewrite (ss_left _ _ Sl); exact E).
  pose proof (ti_node _ _ _ _ _ _ _ _ T _ _ Al0) as N.
  destruct (nd_left l0) as [k0|] eqn:EL.
  - rewrite Ul in Rl by discriminate. eapply (BF s s0 k x l l0 y); eauto. rewrite EL. auto.
  - destruct (nd_computed l0) eqn:EC; [destruct (Cl eq_refl) as [_ E]; rewrite E in Rl; eapply (BF s s0 k x l l0 y); eauto; now rewrite EL|].
    destruct (nd_computed nl) eqn:EN.
    + exfalso. specialize (Dl eq_refl eq_refl). destruct OR as [OR|[l1 [l2 [E12 [O1 [O2 O3]]]]]]; [congruence|].
      assert (I : In l (t_leaves t)) by (apply (ti_leaves _ _ _ _ _ _ _ _ T); eauto). rewrite E12 in I. apply in_app_iff in I. destruct I as [I|I].
      * destruct (O1 _ _ I Al0) as [Z|Z]; [congruence|]. 
        pose proof (constraints_complete_leaf l0 N EL EG0). congruence.
      * pose proof (O3 _ _ _ _ I As0 Ls). lia.
    + exfalso. rewrite (fresh_red nl) in Rl; [discriminate Rl|exact (ti_node _ _ _ _ _ _ _ _ T' _ _ Al)|auto].
Qed.

(** One round. *)
Lemma best_first_split t s pos id x te e : inv t -> best_first t -> ordered t -> broke (t_budget t) = false ->
  scan_ok M c D L FS I0 b0 t s -> flags c N0 (sc_tree s) -> grew t (sc_tree s) -> (forall j, In j (t_leaves t) -> seen s j) ->
  (broke (t_budget (sc_tree s)) = true \/ forall j, In j (t_leaves t) -> handled c N0 s j) ->
  sc_best s = Some (pos, id, x) -> xlt x (Fin (tc_min_imp c)) = true -> node_split M c (sc_tree s) id e = Ok te ->
  forall nd2 d, node_at (fst te) id nd2 ->
  let t' := set_depth (set_leaves (put_node (inc_splits (fst te)) id (with_preds nd2 None None (nd_pval nd2)))
     match nd_left nd2, nd_right nd2 with Some l, Some r => remove_nth pos (t_leaves (fst te)) ++ [l; r] | _, _ => remove_nth pos (t_leaves (fst te)) end) d in
  best_first t' /\ flags c N0 t' /\ ordered t'.
Proof.
  intros T BF OR NB SO [FN FL] GR SN HD EB X E2 nd2 d A2 t'. destruct te as [t2 e2]. cbn [fst] in *.
  pose proof SO as [T1 L1 S1 NN1 B1]. rewrite EB in B1. destruct B1 as [P [nd [A [LF [CC [RX SP]]]]]].
  pose proof (best_first_grew _ _ T T1 BF OR GR) as BF1.
  destruct (fit_step_split _ _ _ _ _ _ _ _ _ _ _ _ _ _ _ T1 P A LF CC RX X E2) as [nl [nr [nd' [TE [A' [EN' [TI NW]]]]]]].
  set (k0 := length (t_nodes (sc_tree s))) in *. destruct NW as [W1 [W2 [W3 W4]]].
  assert (E2n : nd2 = with_children nd k0 (S k0)) by (unfold node_at in *; congruence). clear A2 A' EN' nd'. 
  assert (LT : id < k0) by (apply nth_error_Some; unfold node_at in A; congruence).
  assert (IN : forall j y, node_at (sc_tree s) j y -> j < k0) by (intros j y Ay; apply nth_error_Some; unfold node_at in Ay; congruence).
  assert (AT : forall j y, node_at t' j y -> (j = id /\ y = with_preds nd2 None None (nd_pval nd2)) \/ (j <> id /\ node_at (sc_tree s) j y) \/ (j = k0 /\ y = nl) \/ (j = S k0 /\ y = nr)).
  { intros j y Ay. unfold node_at, t' in Ay. cbn [set_depth set_leaves put_node set_nodes inc_splits t_nodes] in Ay. rewrite TE in Ay. cbn [set_nodes t_nodes] in Ay.
    rewrite set_nth_nth, !set_nth_app_nth, Nat.eqb_refl in Ay by auto. destruct (Nat.eqb_spec j id) as [->|NE]; [left; split; congruence|].
    fold k0 in Ay. destruct (Nat.ltb_spec j k0); [right; left; auto|]. right. right.
    destruct (j - k0) as [|[|z]] eqn:EJ; cbn in Ay; [left; split; [lia|congruence]|right; split; [lia|congruence]|destruct z; discriminate Ay]. }
  assert (LN : nd_left nl = None /\ nd_left nr = None).
  { assert (Q : forall j y, In j [k0; S k0] -> nth_error (set_nth id (with_children nd k0 (S k0)) (t_nodes (sc_tree s)) ++ [nl; nr]) j = Some y -> nd_left y = None).
    { intros j y J E. assert (I : In j (t_leaves (set_leaves (inc_splits t2) (remove_nth pos (t_leaves (sc_tree s)) ++ [k0; S k0])))) by (cbn; apply in_or_app; auto).
      apply (ti_leaves _ _ _ _ _ _ _ _ TI) in I. destruct I as [z [Az Lz]]. unfold node_at in Az. cbn [set_leaves inc_splits t_nodes] in Az. rewrite TE in Az. cbn [set_nodes t_nodes] in Az. congruence. }
    assert (LS : length (set_nth id (with_children nd k0 (S k0)) (t_nodes (sc_tree s))) = k0) by apply set_nth_length.
    split; [apply (Q k0)|apply (Q (S k0))]; try (cbn; tauto); rewrite nth_error_app2; rewrite LS; try lia; [now rewrite Nat.sub_diag|].
    replace (S k0 - k0) with 1 by lia. reflexivity. }
  destruct LN as [LN1 LN2].
  assert (CH : forall j y k, node_at (sc_tree s) j y -> nd_left y = Some k -> k < k0).
  { intros j y k Ay Ly. assert (NL : nd_left y <> None) by congruence. destruct (ti_inner _ _ _ _ _ _ _ _ T1 _ _ Ay NL) as (l & r & n1 & n2 & f & v & z & I1 & _ & _ & _ & _ & I5 & _).
    assert (k = l) by congruence. subst k. exact (IN l n1 I5). }
  split; [|split].
  - intros s0 ns k y0 l nl0 y As Ls Rs Al NE LTk LL Rl EG WT. apply AT in As, Al. destruct As as [[-> ->]|[[NEs As]|[[-> ->]|[-> ->]]]]; try congruence.
    + rewrite E2n in Ls, Rs. cbn in Ls, Rs. rewrite RX in Rs. injection Ls as <-. injection Rs as <-.
      destruct Al as [[-> _]|[[_ Al]|[[-> ->]|[-> ->]]]]; try contradiction; try lia.
      assert (LFl : nd_left nl0 = None). { destruct (nd_left nl0) as [k'|] eqn:E; auto. pose proof (LL k' eq_refl). pose proof (CH _ _ _ Al E). lia. }
      assert (I : In l (t_leaves t)) by (rewrite <- L1; apply (ti_leaves _ _ _ _ _ _ _ _ T1); eauto).
      pose proof (ti_node _ _ _ _ _ _ _ _ T1 _ _ Al) as N.
      destruct (SN l I) as [[z [Az [_ Hz]]]|[z [Az Cz]]]; assert (z = nl0) by (unfold node_at in *; congruence); subst z; [|rewrite (fresh_red nl0 N Cz) in Rl; discriminate Rl].
      destruct Hz as [[Hz|[Cz [Hz|[w [Rw Hw]]]]]|[Cz [w [Rw Hw]]]].
      * rewrite (constraints_complete_leaf _ N LFl EG) in Hz. discriminate Hz.
      * congruence.
      * assert (w = y) by congruence. subst w. congruence.
      * assert (w = y) by congruence. subst w. rewrite EB in Hw. exact Hw.
    + pose proof (CH _ _ _ As Ls). destruct Al as [[-> ->]|[[NEl Al]|[[-> ->]|[-> ->]]]]; try lia.
      * apply (BF1 s0 ns k y0 id nd y); auto; rewrite E2n in *; try exact Rl; try exact EG; try exact WT. intros k' E. congruence.
      * eapply (BF1 s0 ns k y0 l nl0 y); eauto.
  - split; [unfold t'; rewrite TE; exact FN|]. intros j y Ay Ly Sy. apply AT in Ay. destruct Ay as [[-> ->]|[[NE Ay]|[[-> ->]|[-> ->]]]]; try congruence; eauto.
    rewrite E2n in Ly. discriminate Ly.
  - destruct HD as [HD|HD]; [left; unfold t'; rewrite TE; exact HD|]. right. exists (remove_nth pos (t_leaves (sc_tree s))), [k0; S k0].
    split; [unfold t'; rewrite E2n, TE; reflexivity|]. 
    assert (NK : forall j, In j (remove_nth pos (t_leaves (sc_tree s))) -> j <> id /\ In j (t_leaves t)).
    { intros j J. split; [|rewrite <- L1; eapply remove_nth_In; eauto]. intros ->.
      pose proof (Permutation_NoDup (remove_nth_perm _ _ _ P) (ti_nodup _ _ _ _ _ _ _ _ T1)) as ND. inversion ND; contradiction. }
    split; [|split].
    + intros j y J Ay. destruct (NK j J) as [NE J']. apply AT in Ay. destruct Ay as [[-> _]|[[_ Ay]|[[-> ->]|[-> ->]]]]; try contradiction.
      * eapply handled_settled; eauto.
      * exfalso. destruct (HD _ J') as [z [Az _]]. pose proof (IN _ _ Az). lia.
      * exfalso. destruct (HD _ J') as [z [Az _]]. pose proof (IN _ _ Az). lia.
    + intros j y [<-|[<-|[]]] Ay; apply AT in Ay; destruct Ay as [[Z _]|[[_ Ay]|[[Z ->]|[Z ->]]]]; try lia; auto; pose proof (IN _ _ Ay); lia.
    + intros j s0 ns k J As Ls. assert (k0 <= j) by (destruct J as [<-|[<-|[]]]; lia). apply AT in As. destruct As as [[-> ->]|[[_ As]|[[_ ->]|[_ ->]]]]; try congruence.
      * rewrite E2n in Ls. cbn in Ls. injection Ls as <-. auto.
      * pose proof (CH _ _ _ As Ls). lia.
Qed.

Lemma best_first_step t e t' e' cont : inv t -> flags c N0 t -> best_first t -> ordered t -> fit_step M c t e = Ok (t', e', cont) ->
  best_first t' /\ (cont = true -> flags c N0 t' /\ ordered t').
Proof.
  intros T FL BF OR H. unfold fit_step in H. apply rbind_ok in H. destruct H as [s [ES H]]. cbv zeta in H.
  pose proof (scan_ok_all _ _ _ _ _ _ _ _ _ _ T ES) as SO. pose proof (so_tree _ _ _ _ _ _ _ _ _ SO) as T1.
  apply rbind_ok in H. destruct H as [[[t3 e3] cont'] [EC H]]. apply rbind_ok in H. destruct H as [d [_ H]].
  assert (K : t' = set_depth t3 d /\ cont' = cont) by (split; congruence). destruct K as [-> ->]. clear H.
  set (s0 := {| sc_tree := t; sc_env := e; sc_best := None; sc_stop := false |}) in *.
  assert (SO0 : scan_ok M c D L FS I0 b0 t s0) by (constructor; cbn; auto).
  assert (STAY : grew t (sc_tree s) -> best_first (set_depth (sc_tree s) d)).
  { intros G. exact (best_first_grew _ _ T T1 BF OR G). }
  destruct (broke (t_budget t)) eqn:BT.
  - destruct (scan_dead_all t T (t_leaves t) [] s0 s) as [_ [B1 [_ [G _]]]]; auto using grew_refl.
    rewrite B1 in EC. cbn [s0 sc_best] in EC. injection EC as <- _ <-. split; [auto|discriminate].
  - destruct OR as [OR|[l1 [l2 [E12 [O1 [O2 O3]]]]]]; [congruence|].
    destruct (scan_alive_all t l1 l2 T BT E12 O1 O2 (t_leaves t) [] s0 s) as [FL' [G [SN HD]]]; auto using grew_refl.
    { intros j []. } { intros. reflexivity. }
    assert (OR : ordered t) by (right; exists l1, l2; auto).
    destruct (sc_best s) as [[[pos id] x]|] eqn:EB; [|injection EC as <- _ <-; split; [auto|discriminate]].
    destruct (xlt x (Fin (tc_min_imp c))) eqn:X; [|injection EC as <- _ <-; split; [auto|discriminate]].
    apply rbind_ok in EC. destruct EC as [te [E2 EC]]. apply rbind_ok in EC. destruct EC as [nd2 [A2 EC]]. apply nth_res_ok in A2.
    destruct (best_first_split t s pos id x te (sc_env s) T BF OR BT SO FL' G SN HD EB X E2 nd2 d A2) as [Q1 [Q2 Q3]].
    apply ok_pair_inv in EC. destruct EC as [EC <-]. injection EC as <- _. split; auto.
Qed.

Lemma best_first_loop fuel : forall t e t' e', inv t -> flags c N0 t -> best_first t -> ordered t -> fit_loop M c fuel t e = Ok (t', e') -> best_first t'.
Proof.
  induction fuel as [|fuel IH]; intros t e t' e' T FL BF OR H; cbn [fit_loop] in H; apply rbind_ok in H; destruct H as [stop [ES H]].
  - destruct stop; [|discriminate H]. apply ok_pair_inv in H. destruct H as [<- _]. auto.
  - destruct stop; [apply ok_pair_inv in H; destruct H as [<- _]; auto|]. apply rbind_ok in H. destruct H as [[[t1 e1] cont] [E1 H]].
    destruct (best_first_step _ _ _ _ _ T FL BF OR E1) as [BF1 K]. destruct cont; [|apply ok_pair_inv in H; destruct H as [<- _]; auto].
    destruct (K eq_refl) as [FL1 OR1]. destruct (fit_step_tinv _ _ _ _ _ _ _ _ _ _ _ _ T E1) as [T1 _]. eapply IH; eauto.
Qed.
End Order.

Lemma built_best_first P M c a e t : built P M c a e t -> train_rows a <> [] -> best_first c (ta_labels a) (length (ta_labels a)) t.
Proof.
  intros HB NE. destruct (built_loop P M c a e t HB NE) as (t0 & e0 & d & fuel & e1 & HN & HF & T & S0).
  destruct (new_spec _ _ _ _ _ _ HN) as (nd & e2 & EN & ET & _).
  assert (NZ : 0 < length (train_rows a)) by (destruct (train_rows a); [contradiction|cbn; lia]).
  edestruct (node_new_ok M c (ta_data a) (ta_labels a) (train_feats a) (train_rows a)) as (N & I1 & I2 & I3 & I4 & I5 & I6 & I7 & I8 & I9 & I10); [| | |exact EN|..]; auto using incl_refl.
  { unfold Qcdiv. symmetry. apply Qcmult_inv_r. now apply Nq_neq0. }
  { unfold within_depth. destruct (tc_max_depth c); auto. lia. }
  assert (AT : forall id x, node_at (start_tree t0 d) id x -> id = 0 /\ x = nd).
  { intros id x E. unfold node_at in E. rewrite ET in E. cbn in E. destruct id as [|[|id]]; cbn in E; try discriminate. injection E as <-. auto. }
  eapply best_first_loop; [exact T| | | |exact HF].
  - split; [rewrite ET; reflexivity|]. intros id x A _ SP. apply AT in A. destruct A as [_ ->]. congruence.
  - intros s ns k x l nl y As Ls. apply AT in As. destruct As as [_ ->]. congruence.
  - right. exists [], [0]. split; [rewrite ET; reflexivity|]. ands.
    + intros j x [].
    + intros j x _ A. apply AT in A. destruct A as [_ ->]. auto.
    + intros j s ns k _ As Ls. apply AT in As. destruct As as [_ ->]. congruence.
Qed.

Lemma fitted_best_first P M c a e t : built P M c a e t -> train_rows a <> [] ->
  forall s ns k x l nl y,
  node_at t s ns -> nd_left ns = Some k -> nd_red ns = Some x ->
  node_at t l nl -> l <> s -> l < k -> (forall k', nd_left nl = Some k' -> k < k') -> nd_red nl = Some y ->
  below_depth c (nd_depth nl) -> tc_min_split c < length (node_rows t l) -> varied (labels_at (ta_labels a) (node_rows t l)) ->
  xlt (xdiv (xmul y (Fin (Nq (length (node_rows t l))))) (Fin (Nq (length (ta_labels a))))) (Fin (tc_min_imp c)) = true ->
  xlt y x = false.
Proof.
  intros HB NE s ns k x l nl y As Ls Rs Al NEl LT LL Rl B1 B2 B3 W. pose proof (built_best_first _ _ _ _ _ _ HB NE) as BF.
  assert (ER : node_rows t l = nd_idcs nl) by (unfold node_rows; unfold node_at in Al; now rewrite Al). rewrite ER in *.
  apply (BF s ns k x l nl y); auto.
  - split; auto.
  - unfold weighted. pose proof (built_tinv P M c a e t HB NE) as T. rewrite (no_n _ _ _ _ _ _ _ (ti_node _ _ _ _ _ _ _ _ T _ _ Al)). exact W.
Qed.

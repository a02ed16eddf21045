(** fit(data, labels): what the root is trained on. *)
From Coq Require Import List Arith Bool ZArith QArith Qcanon Lia Permutation.
From Verif Require Import Base Num Rng Histogram Utils Criteria Solvers Tree Spec SolverSpec TreeSpec NumFacts ListFacts HistFacts DrawFacts TreeFacts CountFacts TreeThms.
Import ListNotations.
Local Open Scope nat_scope.

(** The solution recorded in a node, and the rows it was computed from. *)
Definition record_of (nd : node) := (nd_idcs nd, nd_feats nd, nd_n nd, nd_counts nd, nd_sf nd, nd_sv nd, nd_red nd, nd_queries nd, nd_computed nd).

Section Root.
Context (M : math) (c : tcfg).

(** Once the root is not a leaf any more, it stays as it is. *)
Record aside (nd : node) (t : tree) : Prop := {
  as_root : node_at t 0 nd;
  as_leaf : ~ In 0 (t_leaves t);
  as_child : forall id x, node_at t id x -> nd_left x <> Some 0 /\ nd_right x <> Some 0
}.

Lemma best_split_links nd b e nd1 o e1 : calculate_best_split M c nd b e = Ok (nd1, o, e1) ->
  nd_left nd1 = nd_left nd /\ nd_right nd1 = nd_right nd.
Proof.
  unfold calculate_best_split. destruct (nd_computed nd); [intros H; injection H as <- <- <-; auto|].
  intros H. apply rbind_ok in H. destruct H as [[[s bins] e'] [E H]]. destruct s.
  - apply rbind_ok in H. destruct H as [sf [_ H]]. injection H as <- _ _. auto.
  - injection H as <- _ _. auto.
Qed.
Lemma check_links t nd e b nd1 e1 : check_splittable M c t nd e = Ok (b, nd1, e1) ->
  nd_left nd1 = nd_left nd /\ nd_right nd1 = nd_right nd.
Proof.
  unfold check_splittable. intros H. apply rbind_ok in H. destruct H as [ok [_ H]]. destruct (negb ok); [injection H as _ <- _; auto|].
  apply rbind_ok in H. destruct H as [[[n1 o1] e2] [E1 H]]. apply best_split_links in E1. destruct o1; [|injection H as _ <- _; auto].
  apply rbind_ok in H. destruct H as [[[n2 o2] e3] [E2 H]]. apply best_split_links in E2.
  apply rbind_ok in H. destruct H as [red [_ H]]. injection H as _ <- _. destruct E1, E2. split; congruence.
Qed.

Lemma aside_put nd t id old new : aside nd t -> In id (t_leaves t) \/ id <> 0 -> node_at t id old -> nd_left new = nd_left old -> nd_right new = nd_right old ->
  aside nd (put_node t id new).
Proof.
  intros [R L C] I E EL ER.
  assert (NZ : id <> 0) by (intros ->; destruct I; auto). split.
  - apply (node_at_put t id new 0 old E). right. split; auto.
  - exact L.
  - intros j x J. apply (node_at_put t id new j old E) in J. destruct J as [[-> ->]|[_ J]]; [|now apply (C j)].
    rewrite EL, ER. now apply (C id).
Qed.

Lemma aside_scan nd s pl s' : aside nd (sc_tree s) -> In (snd pl) (t_leaves (sc_tree s)) -> scan_leaf M c s pl = Ok s' ->
  aside nd (sc_tree s') /\ t_leaves (sc_tree s') = t_leaves (sc_tree s).
Proof.
  intros A I. unfold scan_leaf. destruct (sc_stop s); [intros H; injection H as <-; auto|]. destruct pl as [pos id]. cbn [snd] in I.
  intros H. apply rbind_ok in H. destruct H as [nd0 [E0 H]]. apply nth_res_ok in E0.
  apply rbind_ok in H. destruct H as [ok [_ H]]. destruct (negb ok).
  { injection H as <-. cbn [sc_tree]. split; [|reflexivity]. apply (aside_put nd _ id nd0); auto. }
  match type of H with (if ?b then _ else _) = _ => destruct b end; [injection H as <-; auto|].
  apply rbind_ok in H. destruct H as [[[nd1 red] e1] [E1 H]].
  apply rbind_ok in H. destruct H as [[[spl nd3] e3] [E3 H]]. injection H as <-. cbn [sc_tree].
  pose proof (best_split_links _ _ _ _ _ _ E1) as [L1 R1].
  assert (L3 : nd_left nd3 = nd_left nd0 /\ nd_right nd3 = nd_right nd0).
  { destruct (nd_splittable nd1).
    - injection E3 as _ <- _. auto.
    - apply rbind_ok in E3. destruct E3 as [[[b nd2] e2] [E2 E3]]. apply check_links in E2. injection E3 as _ <- _. cbn. destruct E2 as [-> ->]. auto. }
  destruct L3 as [L3 R3].
  assert (A1 : aside nd (put_node (sc_tree s) id nd1)) by (apply (aside_put nd _ id nd0); auto).
  assert (N1 : node_at (put_node (sc_tree s) id nd1) id nd1) by (apply (node_at_put _ id nd1 id nd0 E0); auto).
  destruct (nd_computed nd0); (split; [|reflexivity]).
  - apply (aside_put nd _ id nd1); auto; congruence.
  - assert (A2 : aside nd (pay (put_node (sc_tree s) id nd1) (nd_queries nd1))) by (destruct A1; split; auto).
    apply (aside_put nd _ id nd1); auto; congruence.
Qed.

Lemma aside_split nd t id e t' e' : aside nd t -> id <> 0 -> node_split M c t id e = Ok (t', e') ->
  node_at t' 0 nd /\ t_leaves t' = t_leaves t /\ (forall j x, node_at t' j x -> nd_left x <> Some 0 /\ nd_right x <> Some 0).
Proof.
  intros A NZ. unfold node_split. intros H. apply rbind_ok in H. destruct H as [nd0 [E0 H]]. apply nth_res_ok in E0.
  apply rbind_ok in H. destruct H as [[] [_ H]]. apply rbind_ok in H. destruct H as [[nd1 e1] [E1 H]].
  assert (L1 : nd_left nd1 = nd_left nd0 /\ nd_right nd1 = nd_right nd0).
  { destruct (nd_sf nd0); [injection E1 as <- _; auto|]. apply rbind_ok in E1. destruct E1 as [[[x y] w] [E1 E2]]. injection E2 as <- _.
    now apply best_split_links in E1. }
  destruct L1 as [L1 R1]. destruct (nd_red nd1) as [red|].
  2: { injection H as <- _. destruct (aside_put nd t id nd0 nd1 A ltac:(auto) E0 L1 R1) as [B1 B2 B3]. auto. }
  apply rbind_ok in H. destruct H as [[] [_ H]]. apply rbind_ok in H. destruct H as [data [_ H]]. apply rbind_ok in H. destruct H as [labels [_ H]].
  apply rbind_ok in H. destruct H as [f [_ H]]. apply rbind_ok in H. destruct H as [v [_ H]]. apply rbind_ok in H. destruct H as [cl [_ H]].
  match type of H with (if ?b then _ else _) = _ => destruct b; [discriminate|] end.
  apply rbind_ok in H. destruct H as [[nl el] [EL H]]. apply rbind_ok in H. destruct H as [[nr er] [ER H]]. apply ok_pair_inv in H. destruct H as [<- _].
  assert (K : forall tt p I d pr b ee x y, node_new c tt p I d pr b ee = Ok (x, y) -> nd_left x = None /\ nd_right x = None).
  { intros tt p I d pr b ee x y. unfold node_new. intros G. apply rbind_ok in G. destruct G as [[fs gg] [_ G]]. do 5 (apply rbind_ok in G; destruct G as [? [_ G]]).
    injection G as <- _. auto. }
  apply K in EL. apply K in ER. cbn [fst].
  destruct A as [R L C]. unfold node_at in *. cbn [t_nodes set_nodes put_node t_leaves].
  assert (P0 : 0 < length (t_nodes t)) by (apply nth_error_Some; congruence).
  split; [|split; [reflexivity|]].
  - rewrite nth_error_app1 by now rewrite set_nth_length. rewrite set_nth_nth, E0. destruct (Nat.eqb_spec 0 id); [congruence|exact R].
  - intros j x J. destruct (Nat.lt_ge_cases j (length (t_nodes t))) as [Lj|Gj].
    + rewrite nth_error_app1 in J by now rewrite set_nth_length. rewrite set_nth_nth, E0 in J. destruct (Nat.eqb_spec j id) as [->|N].
      * injection J as <-. cbn. split; intros X; injection X as X; lia.
      * now apply (C j).
    + rewrite nth_error_app2 in J by now rewrite set_nth_length. rewrite set_nth_length in J.
      destruct (j - length (t_nodes t)) as [|[|k]]; cbn in J.
      * injection J as <-. destruct EL as [-> ->]. split; discriminate.
      * injection J as <-. destruct ER as [-> ->]. split; discriminate.
      * destruct k; discriminate.
Qed.

(** The best leaf found by the scan is one of the leaves. *)
Lemma scan_best_leaf s pl s' : scan_leaf M c s pl = Ok s' ->
  sc_best s' = sc_best s \/ exists x, sc_best s' = Some (fst pl, snd pl, x).
Proof.
  unfold scan_leaf. destruct (sc_stop s); [intros H; injection H as <-; auto|]. destruct pl as [pos id].
  intros H. apply rbind_ok in H. destruct H as [nd0 [_ H]]. apply rbind_ok in H. destruct H as [ok [_ H]]. destruct (negb ok); [injection H as <-; auto|].
  match type of H with (if ?b then _ else _) = _ => destruct b end; [injection H as <-; auto|].
  apply rbind_ok in H. destruct H as [[[nd1 red] e1] [_ H]]. apply rbind_ok in H. destruct H as [[[spl nd3] e3] [_ H]]. injection H as <-. cbn [sc_best fst snd].
  destruct red as [x|]; auto. destruct (xlt _ _ && spl); eauto.
Qed.

Lemma aside_step nd t e t' e' b : aside nd t -> fit_step M c t e = Ok (t', e', b) -> aside nd t'.
Proof.
  intros A. unfold fit_step. intros H. apply rbind_ok in H. destruct H as [s [F H]].
  assert (X : aside nd (sc_tree s) /\ t_leaves (sc_tree s) = t_leaves t /\ (forall pos id x, sc_best s = Some (pos, id, x) -> In id (t_leaves t))).
  { refine (foldM_inv _ (fun s => aside nd (sc_tree s) /\ t_leaves (sc_tree s) = t_leaves t /\ (forall pos id x, sc_best s = Some (pos, id, x) -> In id (t_leaves t))) _ _ _ _ _ F).
    - cbn. split; auto. split; auto. intros; discriminate.
    - intros [pos id] s1 s2 I [A1 [L1 B1]] S1. apply in_combine_r in I. destruct (aside_scan nd s1 (pos, id) s2 A1 ltac:(cbn; now rewrite L1) S1) as [A2 L2].
      split; auto. split; [congruence|]. intros p i x B. destruct (scan_best_leaf _ _ _ S1) as [Q|[y Q]]; rewrite Q in B; [now apply (B1 p i x)|].
      injection B as <- <- _. exact I. }
  destruct X as [A1 [L1 B1]]. apply rbind_ok in H. destruct H as [[[t3 e3] cont] [S H]].
  apply rbind_ok in H. destruct H as [d [_ H]]. injection H as <- _ _.
  assert (A3 : aside nd t3); [|destruct A3; split; auto].
  destruct (sc_best s) as [[[pos id] x]|] eqn:Q; [|injection S as <- _ _; auto].
  destruct (xlt x _); [|injection S as <- _ _; auto].
  assert (NZ : id <> 0). { intros ->. specialize (B1 pos 0 x eq_refl). destruct A as [_ L _]. auto. }
  apply rbind_ok in S. destruct S as [[t2 e2] [SP S]]. cbn [fst snd] in S. apply (aside_split nd _ _ _ _ _ A1 NZ) in SP. destruct SP as [R2 [L2 C2]].
  apply rbind_ok in S. destruct S as [nd2 [E2 S]]. apply nth_res_ok in E2. injection S as <- _ _.
  assert (NL : ~ In 0 (t_leaves t2)). { rewrite L2, L1. now destruct A. }
  split.
  - apply (node_at_put (inc_splits t2) id _ 0 nd2 E2). right. split; auto.
  - cbn [set_leaves t_leaves put_node set_nodes inc_splits].
    assert (NR : forall l k, ~ In 0 l -> ~ In 0 (remove_nth k l)).
    { intros l k N J. apply N. clear - J. revert k J. induction l as [|a l IH]; intros [|k] J; cbn in *; auto. destruct J as [J|J]; auto. right. now apply (IH k). }
    pose proof (C2 id nd2 E2) as [CL CR].
    destruct (nd_left nd2) as [l|]; [destruct (nd_right nd2) as [r|]|]; intros J; try (now apply (NR _ _ NL) in J).
    apply in_app_iff in J. destruct J as [J|[J|[J|[]]]]; [now apply (NR _ _ NL) in J|congruence|congruence].
  - intros j y J. apply (node_at_put (inc_splits t2) id _ j nd2 E2) in J. destruct J as [[-> ->]|[_ J]].
    + cbn. apply (C2 id nd2 E2).
    + now apply (C2 j).
Qed.
Lemma aside_loop nd fuel : forall t e t' e', aside nd t -> fit_loop M c fuel t e = Ok (t', e') -> aside nd t'.
Proof.
  induction fuel as [|fuel IH]; intros t e t' e' A H; cbn in H; apply rbind_ok in H; destruct H as [st [_ H]]; destruct st; try (injection H as <- _; auto); try discriminate.
  apply rbind_ok in H. destruct H as [[[t1 e1] cont] [S H]]. apply (aside_step nd) in S; auto. destruct cont; [eauto|]. now injection H as <- _.
Qed.

(** What the first round leaves in the root. *)
Definition root_record (nd0 : node) (b : option Z) (e : env) (nd : node) : Prop :=
  if match tc_max_leaves c with Some m => m =? 1 | None => false end then record_of nd = record_of nd0 else
  match check_constraints c nd0 with
  | Ok true => if match b with None => false | Some z => (z <=? 0)%Z end then record_of nd = record_of nd0
               else exists nd1 o e1, calculate_best_split M c nd0 b e = Ok (nd1, o, e1) /\ record_of nd = record_of nd1
  | _ => record_of nd = record_of nd0
  end.

Lemma computed_again nd b e nd1 o e1 : nd_computed nd = true -> calculate_best_split M c nd b e = Ok (nd1, o, e1) -> nd1 = nd.
Proof. unfold calculate_best_split. intros ->. intros H. now injection H as <- _ _. Qed.
Lemma check_again t nd e b nd1 e1 : nd_computed nd = true -> check_splittable M c t nd e = Ok (b, nd1, e1) -> nd1 = nd.
Proof.
  intros C. unfold check_splittable. intros H. apply rbind_ok in H. destruct H as [ok [_ H]]. destruct (negb ok); [now injection H as _ <- _|].
  apply rbind_ok in H. destruct H as [[[n1 o1] e2] [E1 H]]. apply computed_again in E1; auto. subst n1. destruct o1; [|now injection H as _ <- _].
  apply rbind_ok in H. destruct H as [[[n2 o2] e3] [E2 H]]. apply computed_again in E2; auto. subst n2.
  apply rbind_ok in H. destruct H as [red [_ H]]. now injection H as _ <- _.
Qed.
Lemma best_split_computed nd b e nd1 o e1 : calculate_best_split M c nd b e = Ok (nd1, o, e1) -> nd_computed nd1 = true.
Proof.
  unfold calculate_best_split. destruct (nd_computed nd) eqn:C; [intros H; now injection H as <- _ _|].
  intros H. apply rbind_ok in H. destruct H as [[[s bins] e'] [E H]]. destruct s.
  - apply rbind_ok in H. destruct H as [sf [_ H]]. now injection H as <- _ _.
  - now injection H as <- _ _.
Qed.

Lemma first_step nd0 t e t' e' b : t_nodes t = [nd0] -> t_leaves t = [0] -> nd_left nd0 = None -> nd_right nd0 = None ->
  match tc_max_leaves c with Some m => m =? 1 | None => false end = false ->
  fit_step M c t e = Ok (t', e', b) ->
  exists nd, node_at t' 0 nd /\ root_record nd0 (t_budget t) e nd /\ (b = true -> aside nd t').
Proof.
  intros TN TL NL NR ML. unfold fit_step. intros H. apply rbind_ok in H. destruct H as [s [F H]]. rewrite TL in F. cbn [length seq combine foldM] in F.
  apply rbind_ok in F. destruct F as [s1 [F F']]. injection F' as ->.
  unfold root_record. rewrite ML. unfold scan_leaf in F. cbn [sc_stop sc_tree sc_env sc_best] in F.
  apply rbind_ok in F. destruct F as [n0 [E0 F]]. apply nth_res_ok in E0. rewrite TN in E0. cbn in E0. injection E0 as <-.
  apply rbind_ok in F. destruct F as [ok [CK F]]. rewrite CK.
  apply rbind_ok in H. destruct H as [[[t3 e3] cont] [S H]].
  apply rbind_ok in H. destruct H as [d [_ H]]. injection H as <- _ <-.
  assert (PUT : forall x, t_nodes (put_node t 0 x) = [x]) by (intros x; cbn; now rewrite TN).
  destruct ok; cbn [negb] in F.
  2: { injection F as <-. cbn [sc_best sc_tree] in S. injection S as <- _ <-. exists (with_splittable nd0 false). split; [unfold node_at; cbn; now rewrite TN|].
       split; [reflexivity|]. discriminate. }
  destruct (match t_budget t with None => false | Some b => (b <=? 0)%Z end).
  { injection F as <-. cbn [sc_best sc_tree] in S. injection S as <- _ <-. exists nd0. split; [unfold node_at; cbn; now rewrite TN|]. split; [reflexivity|discriminate]. }
  apply rbind_ok in F. destruct F as [[[nd1 red] e1] [E1 F]]. apply rbind_ok in F. destruct F as [[[spl nd3] e4] [E3 F]]. injection F as <-.
  pose proof (best_split_computed _ _ _ _ _ _ E1) as C1. pose proof (best_split_links _ _ _ _ _ _ E1) as [L1 R1].
  assert (R3 : record_of nd3 = record_of nd1 /\ nd_left nd3 = None /\ nd_right nd3 = None /\ nd_computed nd3 = true).
  { destruct (nd_splittable nd1); [injection E3 as _ <- _; repeat split; congruence|].
    apply rbind_ok in E3. destruct E3 as [[[bb nd2] e2] [E2 E3]]. apply check_again in E2; auto. subst nd2. injection E3 as _ <- _.
    cbn. repeat split; congruence. }
  destruct R3 as [R3 [L3 [Q3 C3]]]. cbn [sc_tree sc_best sc_env] in S.
  set (t2 := put_node _ 0 nd3) in S.
  assert (T2 : t_nodes t2 = [nd3] /\ t_leaves t2 = [0]). { unfold t2. destruct (nd_computed nd0); cbn; now rewrite TN. }
  destruct T2 as [T2 T2L]. clearbody t2.
  assert (FIN : forall x, record_of x = record_of nd3 -> exists nd1 o e1, calculate_best_split M c nd0 (t_budget t) e = Ok (nd1, o, e1) /\ record_of x = record_of nd1).
  { intros x X. do 3 eexists. split; [exact E1|]. congruence. }
  assert (NOT : t3 = t2 -> cont = false -> exists nd, node_at (set_depth t3 d) 0 nd /\ (exists nd1 o e1, calculate_best_split M c nd0 (t_budget t) e = Ok (nd1, o, e1) /\ record_of nd = record_of nd1) /\ (cont = true -> aside nd (set_depth t3 d))).
  { intros -> ->. exists nd3. split; [unfold node_at; cbn; now rewrite T2|]. split; [now apply FIN|discriminate]. }
  destruct red as [x|]; [|injection S as <- _ <-; now apply NOT].
  destruct (xlt x PInf && spl); [|injection S as <- _ <-; now apply NOT].
  destruct (xlt x (Fin (tc_min_imp c))); [|injection S as <- _ <-; now apply NOT].
  apply rbind_ok in S. destruct S as [[t4 e5] [SP S]]. cbn [fst snd] in S.
  (* the split *)
  assert (SPL : exists x, node_at t4 0 x /\ record_of x = record_of nd3 /\ t_leaves t4 = [0] /\ (forall j y, node_at t4 j y -> nd_left y <> Some 0 /\ nd_right y <> Some 0)).
  { unfold node_split in SP. apply rbind_ok in SP. destruct SP as [n [En SP]]. apply nth_res_ok in En. rewrite T2 in En. cbn in En. injection En as <-.
    apply rbind_ok in SP. destruct SP as [[] [_ SP]]. apply rbind_ok in SP. destruct SP as [[n e6] [En SP]].
    assert (n = nd3). { destruct (nd_sf nd3); [now injection En as <- _|]. apply rbind_ok in En. destruct En as [[[u v] w] [En En2]]. injection En2 as <- _. now apply computed_again in En. }
    subst n. destruct (nd_red nd3) as [rr|].
    2: { injection SP as <- _. exists nd3. unfold node_at. cbn. rewrite T2. cbn. split; auto. split; auto. split; auto. intros j y J. destruct j as [|[|j]]; try discriminate. injection J as <-. rewrite L3, Q3. split; discriminate. }
    apply rbind_ok in SP. destruct SP as [[] [_ SP]]. do 5 (apply rbind_ok in SP; destruct SP as [? [_ SP]]).
    match type of SP with (if ?b then _ else _) = _ => destruct b; [discriminate|] end.
    apply rbind_ok in SP. destruct SP as [[nl el] [EL SP]]. apply rbind_ok in SP. destruct SP as [[nr er] [ER SP]]. apply ok_pair_inv in SP. destruct SP as [<- _].
    assert (K : forall tt p I d pr b ee x y, node_new c tt p I d pr b ee = Ok (x, y) -> nd_left x = None /\ nd_right x = None).
    { intros tt p I dd pr bb ee xx y. unfold node_new. intros G. apply rbind_ok in G. destruct G as [[fs gg] [_ G]]. do 5 (apply rbind_ok in G; destruct G as [? [_ G]]).
      injection G as <- _. auto. }
    apply K in EL. apply K in ER. unfold node_at. cbn [t_nodes set_nodes put_node t_leaves fst]. rewrite T2. cbn [set_nth length app].
    exists (with_children nd3 1 2). split; [reflexivity|]. split; [reflexivity|]. split; [exact T2L|].
    intros j y J. destruct j as [|[|[|j]]]; cbn in J.
    - injection J as <-. cbn. split; discriminate.
    - injection J as <-. destruct EL as [-> ->]. split; discriminate.
    - injection J as <-. destruct ER as [-> ->]. split; discriminate.
    - destruct j; discriminate. }
  destruct SPL as [y [Y [RY [LY CY]]]].
  apply rbind_ok in S. destruct S as [n [En S]]. apply nth_res_ok in En. change (nth_error (t_nodes t4) 0 = Some n) in En. unfold node_at in Y. rewrite Y in En. injection En as <-. injection S as <- _ <-.
  exists (with_preds y None None (nd_pval y)).
  assert (N4 : node_at (inc_splits t4) 0 y) by exact Y.
  split; [apply (node_at_put (inc_splits t4) 0 _ 0 y N4); auto|]. split; [now apply FIN|]. intros _. split.
  - apply (node_at_put (inc_splits t4) 0 _ 0 y N4); auto.
  - cbn [set_leaves t_leaves put_node set_nodes inc_splits set_depth]. rewrite LY. cbn [remove_nth app].
    destruct (CY 0 y Y) as [CL CR]. destruct (nd_left y) as [l|]; [destruct (nd_right y) as [r|]|]; cbn; intros J; try tauto. destruct J as [J|[J|[]]]; congruence.
  - intros j z J. apply (node_at_put (inc_splits t4) 0 _ j y N4) in J. destruct J as [[-> ->]|[_ J]]; [cbn; now apply (CY 0 y)|now apply (CY j)].
Qed.

Lemma root_fate nd0 t e t' e' fuel : t_nodes t = [nd0] -> t_leaves t = [0] -> nd_left nd0 = None -> nd_right nd0 = None ->
  fit_loop M c fuel t e = Ok (t', e') -> exists nd, node_at t' 0 nd /\ root_record nd0 (t_budget t) e nd.
Proof.
  intros TN TL NL NR H. destruct fuel as [|fuel]; cbn [fit_loop] in H; apply rbind_ok in H; destruct H as [st [ST H]]; rewrite TL in ST; cbn [length] in ST.
  - destruct st; [|discriminate]. injection H as <- _. exists nd0. split; [unfold node_at; now rewrite TN|]. unfold root_record.
    destruct (tc_max_leaves c) as [m|]; [|discriminate]. rewrite (Nat.eqb_sym m 1). destruct (1 =? m); [reflexivity|]. destruct (m <? 1); discriminate.
  - destruct st.
    + injection H as <- _. exists nd0. split; [unfold node_at; now rewrite TN|]. unfold root_record.
      destruct (tc_max_leaves c) as [m|]; [|discriminate]. rewrite (Nat.eqb_sym m 1). destruct (1 =? m); [reflexivity|]. destruct (m <? 1); discriminate.
    + apply rbind_ok in H. destruct H as [[[t1 e1] cont] [S H]].
      assert (ML : match tc_max_leaves c with Some m => m =? 1 | None => false end = false).
      { destruct (tc_max_leaves c) as [m|]; auto. rewrite (Nat.eqb_sym m 1). destruct (1 =? m); [discriminate|reflexivity]. }
      destruct (first_step nd0 t e t1 e1 cont TN TL NL NR ML S) as [nd [N1 [R1 A1]]]. exists nd. split; auto.
      destruct cont; [|injection H as <- _; exact N1]. apply (as_root nd t'). eapply aside_loop; eauto.
Qed.
End Root.

(** ** The theorems *)
Lemma fit_spec_args M c t0 e0 t e X Y : tree_fit M c t0 (Some X, Some Y) e0 = Ok (t, e) ->
  exists t1 fuel, t_nodes t1 = t_nodes t0 /\ t_leaves t1 = t_leaves t0 ++ [0] /\ t_budget t1 = t_budget t0 /\ fit_loop M c fuel t1 e0 = Ok (t, e).
Proof.
  unfold tree_fit. cbn [rbind]. intros H. apply rbind_ok in H. destruct H as [t1 [E1 H]].
  destruct (tc_splitter c); try discriminate.
  match type of E1 with (if ?b then _ else _) = _ => destruct b end.
  - apply rbind_ok in E1. destruct E1 as [d [_ E1]]. injection E1 as <-. eexists; eexists; split; [|split; [|split; [|exact H]]]; reflexivity.
  - injection E1 as <-. eexists; eexists; split; [|split; [|split; [|exact H]]]; reflexivity.
Qed.

Lemma root_same M P c a e t0 e0 X Y t e1 t' e1' nd nd' : tree_new P c a e = Ok (t0, e0) ->
  tree_fit M c t0 (Some X, Some Y) e0 = Ok (t, e1) -> tree_fit M c t0 (None, None) e0 = Ok (t', e1') ->
  node_at t 0 nd -> node_at t' 0 nd' -> record_of nd = record_of nd'.
Proof.
  intros N F F' E E'. apply new_spec in N. destruct N as [n0 [e00 [NN [-> _]]]].
  apply fit_spec_args in F. destruct F as [t1 [fu [T1 [L1 [B1 F]]]]]. apply fit_spec in F'. destruct F' as [d [fu' F']].
  assert (K : nd_left n0 = None /\ nd_right n0 = None).
  { unfold node_new in NN. apply rbind_ok in NN. destruct NN as [[fs gg] [_ NN]]. do 5 (apply rbind_ok in NN; destruct NN as [? [_ NN]]). injection NN as <- _. auto. }
  destruct K as [K1 K2].
  destruct (root_fate M c n0 t1 e0 t e1 fu T1 L1 K1 K2 F) as [x [X1 X2]]. unfold node_at in *. rewrite X1 in E. injection E as ->.
  match type of F' with fit_loop _ _ _ ?s _ = _ => destruct (root_fate M c n0 s e0 t' e1' fu' eq_refl eq_refl K1 K2 F') as [y [Y1 Y2]] end. rewrite Y1 in E'. injection E' as ->.
  rewrite B1 in X2. cbn [t_budget start_tree] in X2, Y2. unfold root_record in X2, Y2.
  destruct (match tc_max_leaves c with Some m => m =? 1 | None => false end); [congruence|].
  destruct (check_constraints c n0) as [[|]|]; try congruence.
  destruct (match ta_budget a with None => false | Some z => (z <=? 0)%Z end); [congruence|].
  destruct X2 as [a1 [o1 [g1 [X2 X3]]]]. destruct Y2 as [a2 [o2 [g2 [Y2 Y3]]]]. congruence.
Qed.

Lemma root_of_constructor M P c a e t0 e0 X Y t e1 t' e1' nd nd' : tree_new P c a e = Ok (t0, e0) ->
  tree_fit M c t0 (Some X, Some Y) e0 = Ok (t, e1) -> tree_fit M c t0 (None, None) e0 = Ok (t', e1') ->
  node_at t 0 nd -> node_at t' 0 nd' ->
  node_rows t 0 = node_rows t' 0 /\ nd_counts nd = nd_counts nd' /\ nd_sf nd = nd_sf nd' /\ nd_sv nd = nd_sv nd' /\ nd_red nd = nd_red nd' /\ nd_queries nd = nd_queries nd'.
Proof.
  intros N F F' E E'. pose proof (root_same M P c a e t0 e0 X Y t e1 t' e1' nd nd' N F F' E E') as R. unfold record_of in R.
  injection R as R1 R2 R3 R4 R5 R6 R7 R8 R9. unfold node_rows, node_at in *. rewrite E, E'. auto 10.
Qed.

Lemma same_arguments M P c a e t0 e0 : tree_new P c a e = Ok (t0, e0) ->
  tree_fit M c t0 (Some (ta_data a), Some (ta_labels a)) e0 = tree_fit M c t0 (None, None) e0.
Proof. intros N. apply new_spec in N. destruct N as [n0 [e00 [_ [-> _]]]]. reflexivity. Qed.

Lemma one_argument M c t0 e0 X Y : tree_fit M c t0 (Some X, None) e0 = Err GenericException /\ tree_fit M c t0 (None, Some Y) e0 = Err GenericException.
Proof. split; reflexivity. Qed.

(** Two runs that start from the same random state take the same decisions. *)
From Coq Require Import List Arith Bool ZArith QArith Qcanon Lia.
From Verif Require Import Base Num Rng Histogram Utils Criteria Solvers Tree Spec SolverSpec TreeSpec NumFacts ListFacts MakeHist SampleFacts HistFacts HistProps HistProps2 ExactFacts ExactTotal ExactProps DrawFacts MabFacts MabLoop MabProps MabMore MabSim MabThms TreeFacts CountFacts TreeThms Terminate TreeTotal.
Import ListNotations.
Local Open Scope nat_scope.

Lemma new_lock c (R : env -> env -> Prop) (Rgen : forall e e', R e e' -> e_gen e = e_gen e') (Rset : forall e e' g, R e e' -> R (set_gen e g) (set_gen e' g)) t p I d pr b e e' nd e1 : R e e' -> node_new c t p I d pr b e = Ok (nd, e1) ->
  exists e1', node_new c t p I d pr b e' = Ok (nd, e1') /\ R e1 e1'.
Proof.
  intros RR H. unfold node_new in *. rewrite <- (Rgen _ _ RR). apply rbind_ok in H. destruct H as [[fs g] [EC H]]. rewrite EC. cbn [rbind].
  apply rbind_ok in H. destruct H as [u [E1 H]]. rewrite E1. cbn [rbind]. apply rbind_ok in H. destruct H as [dd [E2 H]]. rewrite E2. cbn [rbind].
  apply rbind_ok in H. destruct H as [ll [E3 H]]. rewrite E3. cbn [rbind]. apply rbind_ok in H. destruct H as [mm [E4 H]]. rewrite E4. cbn [rbind].
  apply rbind_ok in H. destruct H as [cs [E5 H]]. rewrite E5. cbn [rbind]. apply ok_pair_inv in H. destruct H as [<- <-]. eexists. split; [reflexivity|]. now apply Rset.
Qed.

(** ** Lockstep of a tree fit, for a relation between environments *)
Section Lock.
Context (M : math) (c : tcfg) (R : env -> env -> Prop).
Hypothesis new_lock : forall t p I d pr b e e' nd e1, R e e' -> node_new c t p I d pr b e = Ok (nd, e1) ->
  exists e1', node_new c t p I d pr b e' = Ok (nd, e1') /\ R e1 e1'.

Definition lock (nd : node) (b : option Z) : Prop := forall e e' x e1, R e e' -> calculate_best_split M c nd b e = Ok (x, e1) ->
  exists e1', calculate_best_split M c nd b e' = Ok (x, e1') /\ R e1 e1'.

Lemma lock_computed nd b : nd_computed nd = true -> lock nd b.
Proof. intros C e e' x e1 RR H. unfold calculate_best_split in *. rewrite C in *. apply ok_pair_inv in H. destruct H as [<- <-]. eauto. Qed.
Lemma lock_solve nd b : (forall e e' x e1, R e e' -> node_solve M c nd b e = Ok (x, e1) -> exists e1', node_solve M c nd b e' = Ok (x, e1') /\ R e1 e1') -> lock nd b.
Proof.
  intros HS e e' x e1 RR H. unfold calculate_best_split in *. destruct (nd_computed nd); [apply ok_pair_inv in H; destruct H as [<- <-]; eauto|].
  apply rbind_ok in H. destruct H as [[[s bins] e2] [E H]]. destruct (HS e e' (s, bins) e2 RR E) as (e2' & E' & RR'). rewrite E'. cbn [rbind]. destruct s as [f v r q|q].
  - apply rbind_ok in H. destruct H as [sf [ES H]]. rewrite ES. cbn [rbind]. apply ok_pair_inv in H. destruct H as [<- <-]. eauto.
  - apply ok_pair_inv in H. destruct H as [<- <-]. eauto.
Qed.
Lemma computed_after nd b e nd1 o e1 : calculate_best_split M c nd b e = Ok (nd1, o, e1) -> nd_computed nd1 = true.
Proof.
  unfold calculate_best_split. destruct (nd_computed nd) eqn:C; [intros H; apply ok_pair_inv in H; destruct H as [H _]; apply (f_equal fst) in H; cbn in H; congruence|].
  intros H. apply rbind_ok in H. destruct H as [[[s bins] e2] [_ H]]. destruct s as [f v r q|q].
  - apply rbind_ok in H. destruct H as [sf [_ H]]. apply ok_pair_inv in H. destruct H as [H _]. apply (f_equal fst) in H. cbn [fst] in H. rewrite <- H. reflexivity.
  - apply ok_pair_inv in H. destruct H as [H _]. apply (f_equal fst) in H. cbn [fst] in H. rewrite <- H. reflexivity.
Qed.

Lemma splittable_lock t nd e e' x e1 : nd_computed nd = true -> R e e' -> check_splittable M c t nd e = Ok (x, e1) ->
  exists e1', check_splittable M c t nd e' = Ok (x, e1') /\ R e1 e1'.
Proof.
  intros C RR H. unfold check_splittable in *. apply rbind_ok in H. destruct H as [ok [E1 H]]. rewrite E1. cbn [rbind]. destruct ok; cbn [negb] in *; [|apply ok_pair_inv in H; destruct H as [<- <-]; eauto].
  unfold calculate_best_split in *. rewrite C in *. cbn [rbind] in *. destruct (nd_red nd); [|apply ok_pair_inv in H; destruct H as [<- <-]; eauto]. rewrite C in *. cbn [rbind opt_res] in *. apply ok_pair_inv in H; destruct H as [<- <-]; eauto.
Qed.

Record ssim (s s' : scan) : Prop := {
  sm_tree : sc_tree s = sc_tree s'; sm_best : sc_best s = sc_best s'; sm_stop : sc_stop s = sc_stop s'; sm_env : R (sc_env s) (sc_env s') }.

Lemma scan_lock s s' pos id s1 : ssim s s' ->
  (forall nd, sc_stop s = false -> nth_error (t_nodes (sc_tree s)) id = Some nd -> check_constraints c nd = Ok true -> lock nd (t_budget (sc_tree s))) ->
  scan_leaf M c s (pos, id) = Ok s1 -> exists s1', scan_leaf M c s' (pos, id) = Ok s1' /\ ssim s1 s1'.
Proof.
  intros [ST SB SS SE] LK H. unfold scan_leaf in *. rewrite <- SS, <- ST, <- SB. destruct (sc_stop s) eqn:EST; [assert (s = s1) by congruence; subst s1; exists s'; split; auto; constructor; congruence|].
  apply rbind_ok in H. destruct H as [nd [E1 H]]. rewrite E1. cbn [rbind]. apply rbind_ok in H. destruct H as [ok [E2 H]]. rewrite E2. cbn [rbind].
  destruct ok; cbn [negb] in *.
  2:{ match type of H with Ok ?a = _ => assert (X : a = s1) by congruence end. rewrite <- X. eexists. split; [reflexivity|]. constructor; auto. }
  match type of H with (if ?b then _ else _) = _ => destruct b end.
  { match type of H with Ok ?a = _ => assert (X : a = s1) by congruence end. rewrite <- X. eexists. split; [reflexivity|]. constructor; auto. }
  apply rbind_ok in H. destruct H as [[[nd1 red] e1] [E3 H]]. apply nth_res_ok in E1. destruct (LK nd eq_refl E1 E2 _ _ _ _ SE E3) as (e1' & E3' & R1). rewrite E3'. cbn [rbind].
  apply rbind_ok in H. destruct H as [[[spl nd3] e3] [E4 H]].
  assert (G : exists e3', match nd_splittable nd1 with
                  | Some b => Ok (b, nd1, e1')
                  | None => do k <- check_splittable M c (if nd_computed nd then put_node (sc_tree s) id nd1 else pay (put_node (sc_tree s) id nd1) (nd_queries nd1)) nd1 e1'; let '(b, nd2, e2) := k in Ok (b, with_splittable nd2 b, e2)
                  end = Ok (spl, nd3, e3') /\ R e3 e3').
  { destruct (nd_splittable nd1); [apply ok_pair_inv in E4; destruct E4 as [E4 <-]; exists e1'; split; auto; congruence|].
    apply rbind_ok in E4. destruct E4 as [[[b nd2] e2] [E5 E4]]. destruct (splittable_lock _ _ _ _ _ _ (computed_after _ _ _ _ _ _ E3) R1 E5) as (e2' & E5' & R2). rewrite E5'. cbn [rbind].
    apply ok_pair_inv in E4. destruct E4 as [E4 <-]. exists e2'. split; auto. congruence. }
  destruct G as (e3' & G & R3). cbv zeta. rewrite G. cbn [rbind]. match type of H with Ok ?a = _ => assert (X : a = s1) by congruence end. rewrite <- X.
  eexists. split; [reflexivity|]. constructor; auto.
Qed.

Lemma split_lock t id e e' t1 e1 : R e e' -> (forall nd, nth_error (t_nodes t) id = Some nd -> nd_sf nd = None -> lock nd None) ->
  node_split M c t id e = Ok (t1, e1) -> exists e1', node_split M c t id e' = Ok (t1, e1') /\ R e1 e1'.
Proof.
  intros RR LK H. unfold node_split in *. apply rbind_ok in H. destruct H as [nd0 [E1 H]]. rewrite E1. cbn [rbind]. apply rbind_ok in H. destruct H as [[] [E2 H]]. rewrite E2. cbn [rbind].
  apply rbind_ok in H. destruct H as [[nd e2] [E3 H]].
  assert (G : exists e2', match nd_sf nd0 with Some _ => Ok (nd0, e') | None => do r <- calculate_best_split M c nd0 None e'; Ok (fst (fst r), snd r) end = Ok (nd, e2') /\ R e2 e2').
  { destruct (nd_sf nd0) eqn:SF; [apply ok_pair_inv in E3; destruct E3 as [<- <-]; eauto|]. apply rbind_ok in E3. destruct E3 as [[x e3] [E4 E3]]. apply nth_res_ok in E1. destruct (LK nd0 E1 SF _ _ _ _ RR E4) as (e3' & E4' & R3).
    rewrite E4'. cbn [rbind fst snd] in *. apply ok_pair_inv in E3. destruct E3 as [<- <-]. eauto. }
  destruct G as (e2' & G & R2). rewrite G. cbn [rbind]. clear E3 G. destruct (nd_red nd); [|apply ok_pair_inv in H; destruct H as [<- <-]; eauto].
  apply rbind_ok in H. destruct H as [[] [E4 H]]. rewrite E4. cbn [rbind]. apply rbind_ok in H. destruct H as [dd [E5 H]]. rewrite E5. cbn [rbind]. apply rbind_ok in H. destruct H as [ll [E6 H]]. rewrite E6. cbn [rbind].
  apply rbind_ok in H. destruct H as [f [E7 H]]. rewrite E7. cbn [rbind]. apply rbind_ok in H. destruct H as [v [E8 H]]. rewrite E8. cbn [rbind]. apply rbind_ok in H. destruct H as [cl [E9 H]]. rewrite E9. cbn [rbind]. cbv zeta in *.
  match type of H with (if ?b then _ else _) = _ => destruct b end; [discriminate H|].
  apply rbind_ok in H. destruct H as [[nl e3] [C1 H]]. apply rbind_ok in H. destruct H as [[nr e4] [C2 H]]. unfold create_child in *. cbn [fst snd] in *.
  destruct (new_lock _ _ _ _ _ _ _ _ _ _ R2 C1) as (e3' & C1' & R3). rewrite C1'. cbn [rbind fst snd]. destruct (new_lock _ _ _ _ _ _ _ _ _ _ R3 C2) as (e4' & C2' & R4). rewrite C2'. cbn [rbind fst snd].
  apply ok_pair_inv in H. destruct H as [<- <-]. eauto.
Qed.

(** Invariants of the loop and of the scan over the leaves. *)
Context (G : tree -> Prop) (GS : tree -> scan -> Prop).
Hypothesis GS0 : forall t e, G t -> GS t {| sc_tree := t; sc_env := e; sc_best := None; sc_stop := false |}.
Hypothesis GS1 : forall t s pos id s', GS t s -> nth_error (t_leaves t) pos = Some id -> scan_leaf M c s (pos, id) = Ok s' -> GS t s'.
Hypothesis GSlock : forall t s pos id nd, GS t s -> nth_error (t_leaves t) pos = Some id -> nth_error (t_nodes (sc_tree s)) id = Some nd -> check_constraints c nd = Ok true -> lock nd (t_budget (sc_tree s)).
Hypothesis GSsplit : forall t s pos id x nd, GS t s -> sc_best s = Some (pos, id, x) -> nth_error (t_nodes (sc_tree s)) id = Some nd -> nd_sf nd = None -> lock nd None.
Hypothesis Gstep : forall t e t' e' b, G t -> fit_step M c t e = Ok (t', e', b) -> G t'.

Lemma scans_lock t e e' s : G t -> R e e' ->
  foldM (scan_leaf M c) {| sc_tree := t; sc_env := e; sc_best := None; sc_stop := false |} (combine (seq 0 (length (t_leaves t))) (t_leaves t)) = Ok s ->
  exists s', foldM (scan_leaf M c) {| sc_tree := t; sc_env := e'; sc_best := None; sc_stop := false |} (combine (seq 0 (length (t_leaves t))) (t_leaves t)) = Ok s' /\ ssim s s' /\ GS t s.
Proof.
  intros GT RR. assert (A : forall l k, (forall j id, nth_error l j = Some id -> nth_error (t_leaves t) (k + j) = Some id) ->
     forall s0 s0' s, GS t s0 -> ssim s0 s0' -> foldM (scan_leaf M c) s0 (combine (seq k (length l)) l) = Ok s -> exists s', foldM (scan_leaf M c) s0' (combine (seq k (length l)) l) = Ok s' /\ ssim s s' /\ GS t s).
  { induction l as [|id l IH]; intros k HL s0 s0' s1 G0 S0 H; cbn [length seq combine foldM] in *; [assert (s0 = s1) by congruence; subst; eauto|].
    apply rbind_ok in H. destruct H as [s2 [E H]]. assert (P : nth_error (t_leaves t) k = Some id) by (rewrite <- (Nat.add_0_r k); apply HL; reflexivity).
    destruct (scan_lock s0 s0' k id s2 S0) as (s2' & E' & S2); auto. { intros nd _ A1 A2. exact (GSlock t s0 k id nd G0 P A1 A2). } rewrite E'. cbn [rbind]. apply (IH (S k)) with (s0 := s2); auto; [|exact (GS1 t s0 k id s2 G0 P E)].
    intros j i Q. replace (S k + j) with (k + S j) by lia. now apply HL. }
  intros H. refine (A (t_leaves t) 0 (fun j id Q => Q) _ _ _ (GS0 t e GT) _ H). constructor; cbn; auto.
Qed.

Lemma step_lock t e e' t1 e1 b : G t -> R e e' -> fit_step M c t e = Ok (t1, e1, b) -> exists e1', fit_step M c t e' = Ok (t1, e1', b) /\ R e1 e1'.
Proof.
  intros GT RR H. unfold fit_step in *. apply rbind_ok in H. destruct H as [s [ES H]]. destruct (scans_lock _ _ _ _ GT RR ES) as (s' & ES' & [S1 S2 S3 S4] & G1). rewrite ES'. cbn [rbind]. cbv zeta in *. rewrite <- S1, <- S2.
  apply rbind_ok in H. destruct H as [[[t3 e3] cont] [EC H]]. destruct (sc_best s) as [[[pos id] x]|] eqn:SB.
  2:{ cbn [rbind]. assert (sc_tree s = t3 /\ sc_env s = e3 /\ false = cont) as (<- & <- & <-) by (repeat split; congruence). apply rbind_ok in H. destruct H as [d [ED H]]. rewrite ED. cbn [rbind]. assert (set_depth (sc_tree s) d = t1 /\ sc_env s = e1 /\ false = b) as (<- & <- & <-) by (repeat split; congruence). eauto. }
  destruct (xlt x _).
  2:{ cbn [rbind]. assert (sc_tree s = t3 /\ sc_env s = e3 /\ false = cont) as (<- & <- & <-) by (repeat split; congruence). apply rbind_ok in H. destruct H as [d [ED H]]. rewrite ED. cbn [rbind]. assert (set_depth (sc_tree s) d = t1 /\ sc_env s = e1 /\ false = b) as (<- & <- & <-) by (repeat split; congruence). eauto. }
  apply rbind_ok in EC. destruct EC as [[t2 e2] [E2 EC]]. destruct (split_lock _ _ _ _ _ _ S4 (fun nd A B => GSsplit _ _ _ _ _ _ G1 SB A B) E2) as (e2' & E2' & R2). rewrite E2'. cbn [rbind fst snd] in *.
  apply rbind_ok in EC. destruct EC as [nd [A EC]]. rewrite A. cbn [rbind]. apply ok_pair_inv in EC. destruct EC as [EC <-]. apply pair_equal_spec in EC. destruct EC as [<- <-]. apply rbind_ok in H. destruct H as [d [ED H]]. rewrite ED. cbn [rbind].
  apply ok_pair_inv in H. destruct H as [H <-]. apply pair_equal_spec in H. destruct H as [<- <-]. eauto.
Qed.

Lemma loop_lock fuel : forall t e e' t1 e1, G t -> R e e' -> fit_loop M c fuel t e = Ok (t1, e1) -> exists e1', fit_loop M c fuel t e' = Ok (t1, e1') /\ R e1 e1'.
Proof.
  induction fuel as [|fuel IH]; intros t e e' t1 e1 GT RR H; cbn [fit_loop] in *; apply rbind_ok in H; destruct H as [stop [E1 H]]; rewrite E1; cbn [rbind]; destruct stop.
  - apply ok_pair_inv in H. destruct H as [<- <-]. eauto.
  - discriminate H.
  - apply ok_pair_inv in H. destruct H as [<- <-]. eauto.
  - apply rbind_ok in H. destruct H as [[[t2 e2] b] [E2 H]]. destruct (step_lock _ _ _ _ _ _ GT RR E2) as (e2' & E2' & R2). rewrite E2'. cbn [rbind]. destruct b; [eapply IH; eauto|]. apply ok_pair_inv in H. destruct H as [<- <-]. eauto.
Qed.

Lemma fit_lock t0 arg e e' t1 e1 : (forall t1 d l n, G {| t_data := d; t_labels := l; t_n := n; t_dd := t1; t_feats := t_feats t0; t_nodes := t_nodes t0; t_leaves := t_leaves t0 ++ [0];
      t_budget := t_budget t0; t_queries := t_queries t0; t_splits := t_splits t0; t_depth := t_depth t0 |}) -> R e e' -> tree_fit M c t0 arg e = Ok (t1, e1) -> exists e1', tree_fit M c t0 arg e' = Ok (t1, e1') /\ R e1 e1'.
Proof.
  intros GT RR H. unfold tree_fit in *. apply rbind_ok in H. destruct H as [ta [E1 H]]. rewrite E1. cbn [rbind]. apply rbind_ok in H. destruct H as [tb [E2 H]]. rewrite E2. cbn [rbind]. destruct (tc_splitter c); [|discriminate H|discriminate H].
  eapply loop_lock; eauto. assert (TA : exists d l n, ta = {| t_data := d; t_labels := l; t_n := n; t_dd := t_dd t0; t_feats := t_feats t0; t_nodes := t_nodes t0; t_leaves := t_leaves t0;
      t_budget := t_budget t0; t_queries := t_queries t0; t_splits := t_splits t0; t_depth := t_depth t0 |}).
  { destruct arg as [[d|] [l|]]; try discriminate E1; assert (E := f_equal (fun r => match r with Ok x => x | Err _ => ta end) E1); cbn in E; subst ta; [eauto|]. exists (t_data t0), (t_labels t0), (t_n t0). now destruct t0. }
  destruct TA as (d & l & n & ->). cbn in E2. destruct (match tc_bin c with LINEAR | IDENTITY => false | _ => tc_make_discrete c end).
  - apply rbind_ok in E2. destruct E2 as [dd [_ E2]]. assert (E := f_equal (fun r => match r with Ok x => x | Err _ => tb end) E2). cbn in E. subst tb. apply GT.
  - assert (E := f_equal (fun r => match r with Ok x => x | Err _ => tb end) E2). cbn in E. subst tb. apply GT.
Qed.
End Lock.

(** ** Instance 1: the same generators and the same upcoming memory *)
Record R1 (e e' : env) : Prop := { r1_gen : e_gen e = e_gen e'; r1_np : e_np e = e_np e'; r1_py : e_py e = e_py e'; r1_mem : coming e e' }.

Lemma R1_set e e' g : R1 e e' -> R1 (set_gen e g) (set_gen e' g).
Proof. intros [A B C D]. constructor; auto. Qed.
Lemma coming_next e e' : coming e e' -> forall k, e_mem e (S (e_calls e) + k) = e_mem e' (S (e_calls e') + k).
Proof. intros C k. specialize (C (S k)). now rewrite !Nat.add_succ_r in C. Qed.

Lemma exact_shift M c data labels mir e e' x e1 : R1 e e' -> solve_exactly M c data labels mir e = Ok (x, e1) ->
  exists e1', solve_exactly M c data labels mir e' = Ok (x, e1') /\ R1 e1 e1'.
Proof.
  intros [A B C D] H. unfold solve_exactly in *. cbn [alloc] in *. cbv zeta in *. cbn [e_np] in *. rewrite <- B. pose proof (D 0) as D0. rewrite !Nat.add_0_r in D0. rewrite <- D0.
  apply rbind_ok in H. destruct H as [r0 [E1 H]]. rewrite E1. cbn [rbind]. apply rbind_ok in H. destruct H as [mh [E2 H]]. rewrite E2. cbn [rbind]. apply rbind_ok in H. destruct H as [u [E3 H]]. rewrite E3. cbn [rbind].
  apply rbind_ok in H. destruct H as [acc [E4 H]]. rewrite E4. cbn [rbind]. apply rbind_ok in H. destruct H as [s [E5 H]]. rewrite E5. cbn [rbind]. apply rbind_ok in H. destruct H as [est [E6 H]]. rewrite E6. cbn [rbind].
  apply rbind_ok in H. destruct H as [best [E7 H]]. rewrite E7. cbn [rbind]. destruct best as [|b best]; [discriminate H|]. apply rbind_ok in H. destruct H as [r [E8 H]]. rewrite E8. cbn [rbind].
  apply ok_pair_inv in H. destruct H as [<- <-]. eexists. split; [reflexivity|]. constructor; cbn; auto. intros k. apply (coming_next _ _ D).
Qed.

Lemma mab_shift M c eps repl budget batch data labels mir e e' x e1 : R1 e e' -> solve_mab M c eps repl budget batch data labels mir e = Ok (x, e1) ->
  exists e1', solve_mab M c eps repl budget batch data labels mir e' = Ok (x, e1') /\ R1 e1 e1'.
Proof.
  intros [A B C D] H. unfold solve_mab in *. cbn [alloc] in *. cbv zeta in *. cbn [e_np e_gen e_py set_np set_gen set_py e_mem e_calls] in *. rewrite <- B, <- A, <- C. pose proof (D 0) as D0. rewrite !Nat.add_0_r in D0. rewrite <- D0.
  apply rbind_ok in H. destruct H as [r0 [E1 H]]. rewrite E1. cbn [rbind].
  destruct (s_bin c); [| |discriminate H|..].
  all: apply rbind_ok in H; destruct H as [mh [E2 H]]; rewrite E2; cbn [rbind]; apply rbind_ok in H; destruct H as [u [E3 H]]; rewrite E3; cbn [rbind];
    apply rbind_ok in H; destruct H as [s [E4 H]]; rewrite E4; cbn [rbind]; apply rbind_ok in H; destruct H as [best [E5 H]]; rewrite E5; cbn [rbind];
    apply rbind_ok in H; destruct H as [bp [E6 H]]; rewrite E6; cbn [rbind]; apply rbind_ok in H; destruct H as [r [E7 H]]; rewrite E7; cbn [rbind];
    apply ok_pair_inv in H; destruct H as [<- <-]; eexists; split; [reflexivity|]; constructor; cbn; auto; intros k; apply (coming_next _ _ D).
Qed.

Lemma solve_shift M c nd b e e' x e1 : R1 e e' -> node_solve M c nd b e = Ok (x, e1) -> exists e1', node_solve M c nd b e' = Ok (x, e1') /\ R1 e1 e1'.
Proof.
  intros RR H. unfold node_solve in *. apply rbind_ok in H. destruct H as [d [E1 H]]. rewrite E1. cbn [rbind]. apply rbind_ok in H. destruct H as [l [E2 H]]. rewrite E2. cbn [rbind]. destruct (tc_solver c); [..|discriminate H].
  - apply rbind_ok in H. destruct H as [[r e2] [E3 H]]. destruct (mab_shift _ _ _ _ _ _ _ _ _ _ _ _ _ RR E3) as (e2' & E3' & R2). rewrite E3'. cbn [rbind fst snd] in *. apply ok_pair_inv in H. destruct H as [<- <-]. eauto.
  - apply rbind_ok in H. destruct H as [[r e2] [E3 H]]. destruct (exact_shift _ _ _ _ _ _ _ _ _ RR E3) as (e2' & E3' & R2). rewrite E3'. cbn [rbind fst snd] in *. apply ok_pair_inv in H. destruct H as [<- <-]. eauto.
Qed.
Lemma lock_all M c nd b : lock M c R1 nd b.
Proof. apply lock_solve. intros. eapply solve_shift; eauto. Qed.

Lemma fit_shift M c t arg e e' t1 e1 : R1 e e' -> tree_fit M c t arg e = Ok (t1, e1) -> exists e1', tree_fit M c t arg e' = Ok (t1, e1') /\ R1 e1 e1'.
Proof.
  intros RR H. apply (fit_lock M c R1 (new_lock c R1 (fun e e' R => r1_gen e e' R) R1_set) (fun _ => True) (fun _ _ => True)) with (e := e); auto; intros; apply lock_all.
Qed.

Lemma tree_new_lock P c a (R : env -> env -> Prop) e e' t e1 : (forall e e', R e e' -> e_gen e = e_gen e') -> (forall e e' g, R e e' -> R (set_gen e g) (set_gen e' g)) ->
  R (set_gen (set_seed P (ta_seed a) e) (seed_gen P (ta_seed a))) (set_gen (set_seed P (ta_seed a) e') (seed_gen P (ta_seed a))) ->
  tree_new P c a e = Ok (t, e1) -> exists e1', tree_new P c a e' = Ok (t, e1') /\ R e1 e1'.
Proof.
  intros RG RS RR H. unfold tree_new in *. apply rbind_ok in H. destruct H as [u [E1 H]]. rewrite E1. cbn [rbind]. cbv zeta in *. apply rbind_ok in H. destruct H as [fs [E2 H]]. rewrite E2. cbn [rbind].
  apply rbind_ok in H. destruct H as [[nd e2] [E3 H]]. destruct (new_lock c R RG RS _ _ _ _ _ _ _ _ _ _ RR E3) as (e2' & E3' & R2). rewrite E3'. cbn [rbind fst snd] in *. apply ok_pair_inv in H. destruct H as [<- <-]. eauto.
Qed.
Lemma seeded e e' P s : coming e e' -> R1 (set_gen (set_seed P s e) (seed_gen P s)) (set_gen (set_seed P s e') (seed_gen P s)).
Proof. intros C. constructor; cbn; auto. Qed.

(** A tree depends on its seed and on the upcoming memory only. *)
Lemma tree_reproducible P M c a e e' t : coming e e' -> built P M c a e t -> built P M c a e' t.
Proof.
  intros C (t0 & e0 & e1 & H1 & H2). destruct (tree_new_lock P c a R1 e e' t0 e0 (fun e e' R => r1_gen e e' R) R1_set (seeded _ _ _ _ C) H1) as (e0' & H1' & R0). destruct (fit_shift _ _ _ _ _ _ _ _ R0 H2) as (e1' & H2' & _).
  exists t0, e0', e1'. auto.
Qed.

(** ** Instance 2: the same generators only *)
Definition R2 (e e' : env) : Prop := e_gen e = e_gen e' /\ e_np e = e_np e' /\ e_py e = e_py e'.
Lemma R2_set e e' g : R2 e e' -> R2 (set_gen e g) (set_gen e' g).
Proof. intros (A & B & C). repeat split; auto. Qed.
Lemma R1_R2 e e' : R1 e e' -> R2 e e'. Proof. intros []. repeat split; auto. Qed.
Lemma R2_trans a b c : R2 a b -> R2 b c -> R2 a c. Proof. intros (A & B & C) (A' & B' & C'). repeat split; congruence. Qed.
(** e' is e with other memory, up to the numbering of the allocations. *)
Lemma R2_split e e' : R2 e e' -> R1 (with_memory e (fun n => e_mem e' (n - e_calls e + e_calls e'))) e'.
Proof. intros (A & B & C). constructor; cbn; auto. intros k. cbn. f_equal. lia. Qed.

Lemma exact_memory M c data labels mir W e0 out e1 mem : solvable c data labels W ->
  solve_exactly M c data labels mir e0 = Ok (out, e1) -> solve_exactly M c data labels mir (with_memory e0 mem) = Ok (out, with_memory e1 mem).
Proof.
  intros S H. destruct (sv_first _ _ _ _ S) as (r0 & Hr0 & L0). pose proof (sv_config _ _ _ _ S) as GC.
  unfold solve_exactly in *. cbn [alloc with_memory e_gen e_np e_py e_mem e_calls] in *. cbv zeta in *. cbn [e_np] in *.
  set (N := length data) in *. change (match s_bin c with IDENTITY => N | _ => s_nb c end) with (bins_of c N) in *. set (B := bins_of c N) in *.
  apply rbind_ok in H. destruct H as [r0' [E0 H]]. rewrite E0. apply nth_res_ok in E0. rewrite Hr0 in E0. injection E0 as <-. cbn [rbind].
  set (F := length r0) in *.
  apply rbind_ok in H. destruct H as [mh [EM H]]. rewrite EM. cbn [rbind].
  destruct (make_histograms_inv _ _ _ _ _ _ _ _ _ _ Hr0 GC EM) as [[I1 I2 I3 _] HL]. fold F in HL.
  apply rbind_ok in H. destruct H as [[] [G1 H]]. rewrite G1. cbn [rbind]. 
  apply rbind_ok in H. destruct H as [acc [EA H]]. rewrite EA. cbn [rbind].
  assert (HA : acc = arms (mh_hists mh) F B (mh_not mh) (mh_cons mh)).
  { unfold accesses in EA. unfold arms. destruct (if negb (length (mh_not mh) =? 0) then mh_cons mh else cells F B); [discriminate|]. now injection EA as <-. }
  rewrite I2, I3 in HA. set (hs := mh_hists mh) in *.
  apply rbind_ok in H. destruct H as [s [ES H]]. rewrite ES. cbn [rbind].
  apply rbind_ok in H. destruct H as [est [EAS H]].
  pose proof EAS as EAS'. apply assign_ok in EAS'. destruct EAS' as [_ [RA _]].
  assert (NDA : NoDup acc) by (rewrite HA; apply arms_nodup).
  assert (RA' : forall f b, In (f, b) (arms hs F B (not_of B hs) (cons_of hs)) -> f < F /\ b < B) by (rewrite <- HA; auto).
  assert (AG : agree F B acc (upd_const (j_est (e_mem e0 (e_calls e0))) (mh_not mh) PInf) (upd_const (j_est (mem (e_calls e0))) (mh_not mh) PInf)).
  { intros f b Hf Hb NI. assert (I : In (f, b) (mh_not mh)).
    { rewrite I3. apply not_of_in. destruct (nth_error hs f) as [h|] eqn:E; [|apply nth_error_None in E; lia].
      exists h. split; auto. split; auto. destruct (le_lt_dec (h_nb h) b); auto. exfalso. apply NI. rewrite HA. apply arms_in; auto. eauto. }
    now rewrite !upd_const_in. }
  pose proof (assign_sim F B acc _ _ acc (sr_ir s) AG NDA (incl_refl _)) as AS. rewrite EAS in AS.
  destruct (assign F B (upd_const (j_est (mem (e_calls e0))) (mh_not mh) PInf) acc (sr_ir s)) as [est'|]; [|destruct AS]. cbn [rres rbind] in *.
  apply rbind_ok in H. destruct H as [best [EB H]].
  assert (EB' : best_cells F B est' = Ok best).
  { rewrite <- EB. unfold best_cells. rewrite <- (agree_flat _ _ _ _ AS). destruct (xnanmin_list _); cbn [rbind]; auto. f_equal.
    apply filter_ext_in'. intros [f' b'] I. apply cells_in in I. cbn [fst snd]. rewrite (AS f' b'); auto; tauto. }
  rewrite EB'. cbn [rbind]. destruct best as [|[f b] best]; [discriminate H|].
  assert (RG : f < F /\ b < B).
  { unfold best_cells in EB. apply rbind_ok in EB. destruct EB as [mn [_ EB]]. assert (I : In (f, b) (filter (fun c0 => xeq (est (fst c0) (snd c0)) mn) (cells F B))) by (injection EB as ->; now left).
    apply filter_In in I. destruct I as [I _]. now apply cells_in in I. }
  apply rbind_ok in H. destruct H as [r [EF H]]. apply ok_pair_inv in H. destruct H as [-> <-].
  assert (EF' : finish (sr_hists s) est' mir (f, b) (sr_q s) = Ok out).
  { rewrite <- EF. unfold finish. cbn [fst snd]. rewrite (AS f b) by (auto; tauto). reflexivity. }
  rewrite EF'. reflexivity.
Qed.

Section Solve2.
Context (M : math) (c : tcfg) (a : targs) (W : nat) (TR : trainable c a W).
Notation D := (ta_data a). Notation L := (ta_labels a).
Notation nok := (node_ok M c D L (train_feats a) (train_rows a)).
Notation steady := (memory_free c a).
Context (ST : memory_free c a).

Lemma solve_mab_eqs nd b : nok nd -> nd_left nd = None -> tc_solver c = MAB ->
  exists eps, forall e, node_solve M c nd b e = rbind (solve_mab M (node_cfg c nd (node_bins c nd) (mab_measure c)) eps (tc_repl c) b (tc_batch c) (node_data a nd) (node_labels a nd) 0%Qc e) (fun r => Ok (fst r, node_bins c nd, snd r)).
Proof.
  intros N LF SV. pose proof (posed_self _ _ _ _ N LF) as PO. unfold node_solve. rewrite (posed_bins _ _ _ nd nd N PO). destruct PO as [H1 [H2 [F _]]]. rewrite H1, H2, SV. cbn [opt_res rbind].
  eexists. intros e. reflexivity.
Qed.
Lemma solve_steady nd b e e' x e1 : nok nd -> dd_fine (nd_dd nd) -> eligible c L nd -> nd_left nd = None -> R2 e e' -> node_solve M c nd b e = Ok (x, e1) ->
  exists e1', node_solve M c nd b e' = Ok (x, e1') /\ R2 e1 e1'.
Proof.
  intros N DF EG LF RR H. set (mem := fun n => e_mem e' (n - e_calls e + e_calls e')). pose proof (R2_split e e' RR) as RS. fold mem in RS.
  assert (K : exists e2, node_solve M c nd b (with_memory e mem) = Ok (x, e2) /\ R2 e1 e2).
  { destruct ST as [[SV EB]|(SV & HB & BT & EB)].
    - rewrite (solve_exact_eq M c a nd nd b e N (posed_self _ _ _ _ N LF) SV) in H. rewrite (solve_exact_eq M c a nd nd b (with_memory e mem) N (posed_self _ _ _ _ N LF) SV). apply rbind_ok in H. destruct H as [[out e2] [E H]]. cbn [fst snd] in H. apply ok_pair_inv in H. destruct H as [<- <-].
      destruct (node_candidates _ _ _ _ TR nd (node_bins c nd) (tc_crit c) 2 N DF (or_introl eq_refl) (le_n 2) EB EG eq_refl) as [S _].
      rewrite (exact_memory _ _ _ _ _ _ _ _ _ mem S E). cbn [rbind fst snd]. eexists. split; [reflexivity|]. repeat split.
    - destruct (solve_mab_eqs nd b N LF SV) as [eps EQ]. rewrite EQ in H. apply rbind_ok in H. destruct H as [[out e2] [E H]]. cbn [fst snd] in H. apply ok_pair_inv in H. destruct H as [<- <-].
      destruct (node_candidates _ _ _ _ TR nd (node_bins c nd) (mab_measure c) 6 N DF (or_intror eq_refl) ltac:(lia) EB EG eq_refl) as [S [E' [f [HC [Hf [NE K6]]]]]].
      assert (L5 : 5 < arm_count (length (nd_feats nd)) E') by (specialize (K6 BT); pose proof (arm_count_ge _ E' f Hf); lia).
      rewrite EQ. rewrite (mab_memory _ _ _ _ _ _ _ _ _ _ _ _ _ E' mem S HB HC L5 E). cbn [rbind fst snd]. eexists. split; [reflexivity|]. repeat split. }
  destruct K as (e2 & E2 & RR2). destruct (solve_shift _ _ _ _ _ _ _ _ RS E2) as (e3 & E3 & RR3). exists e3. split; auto. eapply R2_trans; [exact RR2|]. now apply R1_R2.
Qed.

Notation inv := (tinv M c D L (train_feats a) (train_rows a) (ta_budget a)).
Definition SG (t : tree) : Prop := inv t /\ fine t.
Definition SS (t : tree) (s : scan) : Prop := scan_ok M c D L (train_feats a) (train_rows a) (ta_budget a) t s /\ fine (sc_tree s).

Lemma loop_steady fuel t e e' t1 e1 : SG t -> R2 e e' -> fit_loop M c fuel t e = Ok (t1, e1) -> exists e1', fit_loop M c fuel t e' = Ok (t1, e1') /\ R2 e1 e1'.
Proof.
  apply (loop_lock M c R2 (new_lock c R2 (fun e e' R => proj1 R) R2_set) SG SS).
  - intros t0 e0 [T F]. split; auto. constructor; cbn; auto.
  - intros t0 s pos id s' [S F] P H. split; [eapply scan_leaf_ok; eauto|eapply scan_q_fine; eauto].
  - intros t0 s pos id nd [[T EL ES EN B] [F1 F2]] P A CC. assert (I : In id (t_leaves (sc_tree s))) by (rewrite EL; eapply nth_error_In; eauto).
    apply (ti_leaves _ _ _ _ _ _ _ _ T) in I. destruct I as [nd' [A' LF]]. unfold node_at in A'. assert (nd' = nd) by congruence. subst nd'.
    pose proof (ti_node _ _ _ _ _ _ _ _ T _ _ A) as N. apply lock_solve. intros e2 e2' x e3 RR H. eapply solve_steady; eauto.
    + rewrite Forall_forall in F2. apply F2. eapply nth_error_In; eauto.
    + eapply constraints_eligible; eauto.
  - intros t0 s pos id x nd [[T EL ES EN B] _] SB A SF. rewrite SB in B. destruct B as [_ [nd' [A' [_ [_ [RX _]]]]]]. unfold node_at in A'. assert (nd' = nd) by congruence. subst nd'.
    rewrite (no_nosplit _ _ _ _ _ _ _ (ti_node _ _ _ _ _ _ _ _ T _ _ A) SF) in RX. discriminate RX.
  - intros t0 e0 t' e0' b [T F] H. split; [eapply fit_step_tinv; eauto|eapply fine_step; eauto].
Qed.

Lemma fit_steady P e0 t0 e e' e2 t1 e1 : tree_new P c a e0 = Ok (t0, e2) -> R2 e e' -> tree_fit M c t0 (None, None) e = Ok (t1, e1) -> exists e1', tree_fit M c t0 (None, None) e' = Ok (t1, e1') /\ R2 e1 e1'.
Proof.
  intros EN RR H. destruct (new_spec _ _ _ _ _ _ EN) as (nd & e3 & ENN & ET & EE).
  assert (RD : nd_dd nd = ta_dd a).
  { unfold node_new in ENN. apply rbind_ok in ENN. destruct ENN as [[fs g] [_ K]]. apply rbind_ok in K. destruct K as [_ [_ K]]. apply rbind_ok in K. destruct K as [dd [_ K]].
    apply rbind_ok in K. destruct K as [ll [_ K]]. apply rbind_ok in K. destruct K as [mm [_ K]]. apply rbind_ok in K. destruct K as [cs [_ K]]. apply ok_pair_inv in K. destruct K as [<- _]. reflexivity. }
  assert (SGT : forall d, dd_fine d -> SG (start_tree t0 d)).
  { intros d DF. split; [apply (start_inv M P c a e0 t0 e2 d EN (tr_rows _ _ _ TR))|]. split; [exact DF|]. rewrite ET. cbn. constructor; auto. rewrite RD. apply (tr_dd _ _ _ TR). }
  unfold tree_fit in *. cbn [rbind] in *. rewrite (tr_splitter _ _ _ TR) in *. apply rbind_ok in H. destruct H as [tb [E2 H]]. rewrite E2. cbn [rbind]. eapply loop_steady; [|exact RR|exact H].
  assert (TD : t_data t0 = D) by (rewrite ET; reflexivity).
  destruct (match tc_bin c with LINEAR | IDENTITY => false | _ => tc_make_discrete c end).
  - destruct (discrete_total c a W TR) as (d & E3 & E4). rewrite TD, E3 in E2. cbn [rbind] in E2. assert (E := f_equal (fun r => match r with Ok x => x | Err _ => tb end) E2). cbn in E. subst tb.
    replace (set_leaves _ _) with (start_tree t0 (Some d)); [apply SGT; exact E4|]. rewrite ET. reflexivity.
  - assert (E := f_equal (fun r => match r with Ok x => x | Err _ => tb end) E2). cbn in E. subst tb.
    replace (set_leaves _ _) with (start_tree t0 (ta_dd a)); [apply SGT; apply (tr_dd _ _ _ TR)|]. rewrite ET. reflexivity.
Qed.

(** A tree depends on its seed only. *)
Lemma tree_steady P e e' t e1 t1 e2 : tree_new P c a e = Ok (t, e1) -> tree_fit M c t (None, None) e1 = Ok (t1, e2) ->
  exists e1' e2', tree_new P c a e' = Ok (t, e1') /\ tree_fit M c t (None, None) e1' = Ok (t1, e2') /\ R2 e2 e2'.
Proof.
  intros H1 H2. destruct (tree_new_lock P c a R2 e e' t e1 (fun e e' R => proj1 R) R2_set) as (e1' & H1' & R0); auto; [repeat split|].
  destruct (fit_steady P e t e1 e1' e1 t1 e2 H1 R0 H2) as (e2' & H2' & RR). eauto.
Qed.
End Solve2.

Lemma tree_seed_only P M c a W e e' t : trainable c a W -> memory_free c a -> built P M c a e t -> built P M c a e' t.
Proof.
  intros TR ST (t0 & e0 & e1 & H1 & H2). destruct (tree_steady M c a W TR ST P e e' _ _ _ _ H1 H2) as (e0' & e1' & H1' & H2' & _). exists t0, e0', e1'. auto.
Qed.

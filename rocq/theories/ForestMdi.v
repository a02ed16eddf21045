(** Impurity importance. *)
From Coq Require Import List Arith Bool ZArith QArith Qcanon Lia Permutation Sorting.
From Verif Require Import Base Num Rng Histogram Utils Criteria Solvers Tree Forest Spec SolverSpec TreeSpec ForestSpec NumFacts ListFacts DrawFacts TreeFacts CountFacts TreeThms TreeMore ForestFacts ForestThms ForestMore.
Import ListNotations.
Local Open Scope nat_scope.

(** ** Sums *)
Lemma xadd_comm a b : xadd a b = xadd b a.
Proof. destruct a as [a| | |], b as [b| | |]; cbn [xadd]; auto. f_equal. apply Qcplus_comm. Qed.
Lemma xadd_assoc a b d : xadd (xadd a b) d = xadd a (xadd b d).
Proof. destruct a, b, d; cbn [xadd]; auto. f_equal. symmetry. apply Qcplus_assoc. Qed.
Lemma xadd_0l x : xadd (Fin 0) x = x.
Proof. destruct x; cbn [xadd]; auto. f_equal. apply Qcplus_0_l. Qed.
Lemma xtotal_app l m : xtotal (l ++ m) = xadd (xtotal l) (xtotal m).
Proof. induction l as [|x l IH]; cbn [app xtotal fold_right]; [symmetry; apply (xadd_0l (xtotal m))|]. change (fold_right xadd (Fin 0) (l ++ m)) with (xtotal (l ++ m)). rewrite IH, xadd_assoc. reflexivity. Qed.
Lemma xtotal_perm l m : Permutation l m -> xtotal l = xtotal m.
Proof.
  induction 1; auto.
  - cbn [xtotal fold_right]. change (fold_right xadd (Fin 0) l) with (xtotal l). change (fold_right xadd (Fin 0) l') with (xtotal l'). congruence.
  - cbn [xtotal fold_right]. rewrite <- !xadd_assoc. f_equal. apply xadd_comm.
  - congruence.
Qed.
Lemma xadd_0 x : xadd x (Fin 0) = x.
Proof. destruct x; cbn [xadd]; auto. f_equal. apply Qcplus_0_r. Qed.
Lemma xtotal_below l : Forall below0 l -> xle (xtotal l) (Fin 0) = true.
Proof.
  induction 1 as [|x l H F IH]; [reflexivity|]. cbn [xtotal fold_right]. change (fold_right xadd (Fin 0) l) with (xtotal l). unfold below0 in H. unfold xle in *. destruct x as [x| | |]; try discriminate H; destruct (xtotal l) as [y| | |]; cbn in *; try discriminate IH; auto.
  apply qlt_spec in H. apply orb_true_iff in IH. apply orb_true_iff. left. apply qlt_spec. destruct IH as [IH|IH]; [apply qlt_spec in IH; qlra|apply qeq_spec in IH; subst; qlra].
Qed.
Lemma xle_add_below l x : Forall below0 l -> xle x (Fin 0) = true -> xle (xadd x (xtotal l)) x = true.
Proof.
  intros F H. pose proof (xtotal_below l F) as B. unfold xle in *. destruct x as [x| | |]; destruct (xtotal l) as [y| | |]; cbn in *; try discriminate B; try discriminate H; auto.
  apply orb_true_iff in B. apply orb_true_iff. destruct B as [B|B]; [left; apply qlt_spec; apply qlt_spec in B; qlra|right; apply qeq_spec; apply qeq_spec in B; subst; ring].
Qed.

(** ** Solutions are negative *)
Lemma finish_below hs est c q f v r q' : finish hs est 0%Qc c q = Ok (Found f v r q') -> below0 r.
Proof.
  unfold finish. intros H. apply rbind_ok in H. destruct H as [h [_ H]]. apply rbind_ok in H. destruct H as [e [_ H]]. apply rbind_ok in H. destruct H as [v' [_ H]]. injection H as H.
  destruct (xlt (est (fst c) (snd c)) (Fin 0)) eqn:X; [|discriminate H]. injection H as _ _ <- _. exact X.
Qed.
Lemma solve_below M c nd b e f v r q bins e' : node_solve M c nd b e = Ok (Found f v r q, bins, e') -> below0 r.
Proof.
  unfold node_solve. cbv zeta. intros H. apply rbind_ok in H. destruct H as [d [_ H]]. apply rbind_ok in H. destruct H as [l [_ H]]. destruct (tc_solver c); [| |discriminate H].
  - apply rbind_ok in H. destruct H as [[r0 e0] [E H]]. cbn [fst snd] in H. injection H as -> _ _. unfold solve_mab in E. destruct (alloc e) as [j e1]. apply rbind_ok in E. destruct E as [r1 [_ E]].
    destruct (s_bin _); try discriminate E; cbv zeta in E; repeat (apply rbind_ok in E; let x := fresh in let Q := fresh "Q" in destruct E as [x [Q E]]); apply ok_pair_inv in E; destruct E as [-> _]; eapply finish_below; eauto.
  - apply rbind_ok in H. destruct H as [[r0 e0] [E H]]. cbn [fst snd] in H. injection H as -> _ _. unfold solve_exactly in E. destruct (alloc e) as [j e1]. cbv zeta in E.
    do 6 (apply rbind_ok in E; let x := fresh in destruct E as [x [_ E]]). apply rbind_ok in E. destruct E as [best [_ E]]. destruct best as [|b0 bs]; [discriminate E|]. apply rbind_ok in E. destruct E as [r2 [Q E]]. apply ok_pair_inv in E. destruct E as [-> _]. eapply finish_below; eauto.
Qed.

(** ** Depth-first traversal *)
Section Walk.
Context (t : tree) (root_low : 0 < length (t_nodes t)).
Notation n := (length (t_nodes t)).
Context (SHAPE : forall id nd, node_at t id nd -> (nd_left nd = None /\ nd_right nd = None) \/
     exists l r, nd_left nd = Some l /\ nd_right nd = Some r /\ l <> r /\ id < l /\ id < r /\
       (exists nl nr, node_at t l nl /\ node_at t r nr /\ nd_parent nl = Some id /\ nd_parent nr = Some id)).
Context (PARENT : forall id nd, node_at t id nd -> 0 < id -> exists p pn, nd_parent nd = Some p /\ p < id /\ node_at t p pn /\ (nd_left pn = Some id \/ nd_right pn = Some id)).

Inductive visits : nat -> list nat -> Prop :=
| visit_leaf id nd : node_at t id nd -> nd_left nd = None -> visits id [id]
| visit_inner id nd l r ll lr : node_at t id nd -> nd_left nd = Some l -> nd_right nd = Some r -> visits l ll -> visits r lr -> visits id (id :: ll ++ lr).

Lemma visits_low id l : visits id l -> forall i, In i l -> id <= i /\ exists nd, node_at t i nd.
Proof.
  induction 1 as [id nd A L|id nd l r ll lr A L R V1 IH1 V2 IH2]; intros i I.
  - destruct I as [<-|[]]. eauto.
  - destruct (SHAPE _ _ A) as [[Z _]|(l' & r' & E1 & E2 & NQ & L1 & L2 & _)]; [congruence|]. assert (l' = l) by congruence. assert (r' = r) by congruence. subst l' r'.
    destruct I as [<-|I]; [eauto|]. apply in_app_or in I. destruct I as [I|I]; [destruct (IH1 i I)|destruct (IH2 i I)]; split; auto; lia.
Qed.
Lemma visits_parent id l : visits id l -> forall i nd, In i l -> node_at t i nd -> i = id \/ exists p, nd_parent nd = Some p /\ In p l.
Proof.
  induction 1 as [id nd0 A L|id nd0 l r ll lr A L R V1 IH1 V2 IH2]; intros i nd I AI.
  - destruct I as [<-|[]]. auto.
  - destruct (SHAPE _ _ A) as [[Z _]|(l' & r' & E1 & E2 & NQ & L1 & L2 & nl & nr & N1 & N2 & P1 & P2)]; [congruence|]. assert (l' = l) by congruence. assert (r' = r) by congruence. subst l' r'.
    destruct I as [<-|I]; [auto|]. right. apply in_app_or in I. destruct I as [I|I].
    + destruct (IH1 i nd I AI) as [->|[p [Q1 Q2]]]. * exists id. split; [unfold node_at in *; congruence|now left]. * exists p. split; auto. right. apply in_or_app. now left.
    + destruct (IH2 i nd I AI) as [->|[p [Q1 Q2]]]. * exists id. split; [unfold node_at in *; congruence|now left]. * exists p. split; auto. right. apply in_or_app. now right.
Qed.
Lemma visits_self id l : visits id l -> In id l.
Proof. intros V. inversion V; subst; now left. Qed.
Lemma visits_down id l : visits id l -> forall p pn i, In p l -> node_at t p pn -> nd_left pn = Some i \/ nd_right pn = Some i -> In i l.
Proof.
  induction 1 as [id nd0 A L|id nd0 l r ll lr A L R V1 IH1 V2 IH2]; intros p pn i I AP C.
  - destruct I as [<-|[]]. assert (pn = nd0) by (unfold node_at in *; congruence). subst. destruct (SHAPE _ _ A) as [[Z1 Z2]|(l' & r' & E1 & _)]; [destruct C; congruence|congruence].
  - right. apply in_or_app. destruct I as [<-|I].
    + assert (pn = nd0) by (unfold node_at in *; congruence). subst. destruct C as [C|C]; [left|right]; apply visits_self; congruence.
    + apply in_app_or in I. destruct I as [I|I]; [left; eapply IH1; eauto|right; eapply IH2; eauto].
Qed.
Lemma visits_nodup id l : visits id l -> NoDup l.
Proof.
  induction 1 as [id nd0 A L|id nd0 l r ll lr A L R V1 IH1 V2 IH2]; [repeat constructor; intros []|].
  destruct (SHAPE _ _ A) as [[Z _]|(l' & r' & E1 & E2 & NQ & L1 & L2 & nl & nr & N1 & N2 & P1 & P2)]; [congruence|]. assert (l' = l) by congruence. assert (r' = r) by congruence. subst l' r'.
  assert (DIS : forall i, In i ll -> In i lr -> False).
  { intros i. induction i as [i IH] using lt_wf_ind. intros I1 I2. destruct (visits_low _ _ V1 i I1) as [B1 [nd AI]]. destruct (visits_low _ _ V2 i I2) as [B2 _].
    destruct (PARENT i nd AI) as (p & pn & Q1 & Q2 & Q3 & Q4); [lia|].
    destruct (visits_parent _ _ V1 i nd I1 AI) as [U1|[p1 [R1 R2]]]; destruct (visits_parent _ _ V2 i nd I2 AI) as [U2|[p2 [S1 S2]]].
    - apply NQ. congruence.
    - destruct (visits_low _ _ V2 p2 S2) as [B _]. assert (nd = nl) by (unfold node_at in *; congruence). subst nd. assert (p2 = id) by congruence. lia.
    - destruct (visits_low _ _ V1 p1 R2) as [B _]. assert (nd = nr) by (unfold node_at in *; congruence). subst nd. assert (p1 = id) by congruence. lia.
    - assert (p1 = p) by congruence. assert (p2 = p) by congruence. subst p1 p2. apply (IH p); auto. }
  constructor.
  - intros I. apply in_app_or in I. destruct I as [I|I]; [destruct (visits_low _ _ V1 _ I)|destruct (visits_low _ _ V2 _ I)]; lia.
  - clear -IH1 IH2 DIS. induction ll as [|x ll IHl]; cbn; auto. inversion IH1; subst. constructor.
    + intros I. apply in_app_or in I. destruct I as [I|I]; [contradiction|]. apply (DIS x); [now left|auto].
    + apply IHl; auto. intros i I1 I2. apply (DIS i); auto. now right.
Qed.
Lemma visits_all l : visits 0 l -> Permutation l (seq 0 n).
Proof.
  intros V. apply NoDup_Permutation; [eapply visits_nodup; eauto|apply seq_NoDup|]. intros i. split.
  - intros I. destruct (visits_low _ _ V i I) as [_ [nd A]]. apply in_seq. split; [lia|]. cbn. apply nth_error_Some. unfold node_at in A. congruence.
  - intros I. apply in_seq in I. cbn in I. destruct I as [_ I]. induction i as [i IH] using lt_wf_ind. destruct i as [|i]; [now apply visits_self|].
    destruct (nth_error (t_nodes t) (S i)) as [nd|] eqn:E; [|apply nth_error_None in E; lia]. destruct (PARENT _ _ E) as (p & pn & Q1 & Q2 & Q3 & Q4); [lia|]. eapply visits_down; eauto. apply IH; [lia|]. lia.
Qed.

(** *** The helper *)
Definition gain_of (j : nat) (nd : node) : list xn := match nd_sf nd, nd_red nd with Some s, Some x => if s =? j then [x] else [] | _, _ => [] end.
Definition gains (j : nat) (l : list nat) : list xn := flat_map (fun i => match nth_error (t_nodes t) i with Some nd => gain_of j nd | None => [] end) l.
Context (W : nat) (SF : forall id nd x, node_at t id nd -> nd_red nd = Some x -> exists s, nd_sf nd = Some s /\ s < W).

Lemma credit id nd arr : node_at t id nd -> length arr = W -> exists arr1, match nd_red nd with None => Ok arr | Some r => do sf <- opt_res (nd_sf nd) IndexError; add_at arr sf r end = Ok arr1 /\ length arr1 = W /\ forall j v, nth_error arr j = Some v -> nth_error arr1 j = Some (xadd v (xtotal (gain_of j nd))).
Proof.
  intros A LA. unfold gain_of. destruct (nd_red nd) as [x|] eqn:E.
  - destruct (SF id nd x A E) as [s [E1 LS]]. rewrite E1. cbn [opt_res rbind]. unfold add_at. destruct (nth_res_lt arr s) as [o EO]; [lia|]. rewrite EO. cbn [rbind].
    exists (set_nth s (xadd o x) arr). split; auto. split; [now rewrite set_nth_length|]. intros j v V. rewrite set_nth_nth. apply nth_res_ok in EO. rewrite EO, (Nat.eqb_sym s j). destruct (Nat.eqb_spec j s) as [->|NQ].
    + rewrite V in EO. injection EO as ->. cbn [xtotal fold_right]. now rewrite xadd_0.
    + cbn [xtotal fold_right]. now rewrite xadd_0.
  - exists arr. split; auto. split; auto. intros j v V. destruct (nd_sf nd); cbn [xtotal fold_right]; now rewrite xadd_0.
Qed.
Lemma helper_spec fuel : forall id arr, id < n -> n <= S (id + fuel) -> length arr = W -> exists arr' l, mdi_helper (t_nodes t) fuel id arr = Ok arr' /\ visits id l /\ length arr' = W /\
  forall j v, nth_error arr j = Some v -> nth_error arr' j = Some (xadd v (xtotal (gains j l))).
Proof.
  induction fuel as [|fuel IH]; intros id arr LI LF LA.
  - cbn [mdi_helper]. destruct (nth_res_lt (t_nodes t) id LI) as [nd E]. rewrite E. cbn [rbind]. apply nth_res_ok in E. change (node_at t id nd) in E.
    assert (S1 : exists arr1, match nd_red nd with None => Ok arr | Some r => do sf <- opt_res (nd_sf nd) IndexError; add_at arr sf r end = Ok arr1 /\ length arr1 = W /\ forall j v, nth_error arr j = Some v -> nth_error arr1 j = Some (xadd v (xtotal (gain_of j nd)))).
    { eapply credit; eauto. }
    destruct S1 as (arr1 & E1 & L1 & G1). rewrite E1. cbn [rbind]. destruct (SHAPE _ _ E) as [[Z _]|(l & r & E2 & E3 & NQ & Q1 & Q2 & nl & nr & N1 & N2 & _)].
    + rewrite Z. exists arr1, [id]. split; auto. split; [econstructor; eauto|]. split; auto. intros j v V. rewrite (G1 j v V). unfold gains. cbn [flat_map]. unfold node_at in E. rewrite E, app_nil_r. auto.
    + exfalso. assert (l < n) by (apply nth_error_Some; unfold node_at in N1; congruence). lia.
  - cbn [mdi_helper]. destruct (nth_res_lt (t_nodes t) id LI) as [nd E]. rewrite E. cbn [rbind]. apply nth_res_ok in E. change (node_at t id nd) in E.
    assert (S1 : exists arr1, match nd_red nd with None => Ok arr | Some r => do sf <- opt_res (nd_sf nd) IndexError; add_at arr sf r end = Ok arr1 /\ length arr1 = W /\ forall j v, nth_error arr j = Some v -> nth_error arr1 j = Some (xadd v (xtotal (gain_of j nd)))).
    { eapply credit; eauto. }
    destruct S1 as (arr1 & E1 & L1 & G1). rewrite E1. cbn [rbind]. destruct (SHAPE _ _ E) as [[Z _]|(l & r & E2 & E3 & NQ & Q1 & Q2 & nl & nr & N1 & N2 & _)].
    + rewrite Z. exists arr1, [id]. split; auto. split; [econstructor; eauto|]. split; auto. intros j v V. rewrite (G1 j v V). unfold gains. cbn [flat_map]. unfold node_at in E. rewrite E, app_nil_r. auto.
    + rewrite E2. assert (LL : l < n) by (apply nth_error_Some; unfold node_at in N1; congruence). assert (LR : r < n) by (apply nth_error_Some; unfold node_at in N2; congruence).
      destruct (IH l arr1 LL ltac:(lia) L1) as (a2 & ll & H1 & V1 & W1 & K1). rewrite H1. cbn [rbind]. rewrite E3. cbn [opt_res rbind]. destruct (IH r a2 LR ltac:(lia) W1) as (a3 & lr & H2 & V2 & W2 & K2).
      exists a3, (id :: ll ++ lr). split; auto. split; [eapply visit_inner; eauto|]. split; auto. intros j v V. rewrite (K2 j _ (K1 j _ (G1 j v V))). unfold gains. cbn [flat_map]. rewrite flat_map_app. unfold node_at in E. rewrite E.
      rewrite !xtotal_app, !xadd_assoc. reflexivity.
Qed.
End Walk.

(** ** Predicting keeps everything but the caches *)
Definition profile (nd nd' : node) : Prop := exists a b d, nd' = with_preds nd a b d.
Lemma profile_refl nd : profile nd nd.
Proof. exists (nd_probs nd), (nd_plabel nd), (nd_pval nd). destruct nd; reflexivity. Qed.
Lemma Forall2_put {A} (R : A -> A -> Prop) i x : forall l, (forall y, R y y) -> (forall y, nth_error l i = Some y -> R y x) -> Forall2 R l (set_nth i x l).
Proof.
  revert x. induction i as [|i IH]; intros x [|y l] RR H; cbn; constructor; auto.
  clear -RR. induction l; constructor; auto.
Qed.
Lemma profile_nodes tc t x p t' : tree_predict tc t x = Ok (p, t') -> Forall2 profile (t_nodes t) (t_nodes t') /\ t_budget t' = t_budget t /\ t_leaves t' = t_leaves t.
Proof.
  assert (R : forall l, Forall2 profile l l) by (induction l; constructor; auto using profile_refl).
  unfold tree_predict. intros H. apply rbind_ok in H. destruct H as [id [_ H]]. apply rbind_ok in H. destruct H as [nd [E H]]. apply nth_res_ok in E. destruct (tc_class tc).
  - destruct (nd_probs nd); repeat (apply rbind_ok in H; let x := fresh in destruct H as [x [_ H]]); apply ok_pair_inv in H; destruct H as [_ <-]; [auto|]. split; [|auto].
    cbn. apply Forall2_put; [apply profile_refl|]. intros y Ey. rewrite E in Ey. injection Ey as <-. eexists _, _, _. reflexivity.
  - destruct (nd_pval nd); repeat (apply rbind_ok in H; let x := fresh in destruct H as [x [_ H]]); apply ok_pair_inv in H; destruct H as [_ <-]; [auto|]. split; [|auto].
    cbn. apply Forall2_put; [apply profile_refl|]. intros y Ey. rewrite E in Ey. injection Ey as <-. eexists _, _, _. reflexivity.
Qed.
Lemma profile_trans a b d : profile a b -> profile b d -> profile a d.
Proof. intros (x & y & z & ->) (x' & y' & z' & ->). exists x', y', z'. reflexivity. Qed.
Lemma warmed_profile tc t0 t : warmed tc t0 t -> Forall2 profile (t_nodes t0) (t_nodes t) /\ t_budget t = t_budget t0 /\ t_leaves t = t_leaves t0.
Proof.
  intros [xs [ps H]]. revert t0 ps H. induction xs as [|x xs IH]; intros t0 ps H; cbn [tree_predict_batch] in H.
  - apply ok_pair_inv in H. destruct H as [_ <-]. split; [|auto]. induction (t_nodes t0); constructor; auto using profile_refl.
  - apply rbind_ok in H. destruct H as [[p t1] [E1 H]]. apply rbind_ok in H. destruct H as [[qs t2] [E2 H]]. cbn [fst snd] in *. apply ok_pair_inv in H. destruct H as [_ <-].
    destruct (IH _ _ E2) as (A1 & A2 & A3). destruct (profile_nodes _ _ _ _ _ E1) as (B1 & B2 & B3). split; [|split; congruence].
    revert A1. generalize (t_nodes t2). clear -B1. induction B1 as [|a b l m P F IH]; intros k A; inversion A; subst; constructor; eauto using profile_trans.
Qed.

Section Grown.
Context (M : math) (P : prng) (tc : tcfg) (a : targs) (t : tree) (G : grown P M tc a t) (NE : train_rows a <> []).

Lemma grown_node id nd : node_at t id nd -> exists t0 nd0 e, built P M tc a e t0 /\ warmed tc t0 t /\ node_at t0 id nd0 /\ profile nd0 nd.
Proof.
  intros A. destruct G as (e & t0 & B & W). destruct (warmed_profile _ _ _ W) as [F _]. destruct (Forall2_nth' _ _ _ _ _ F A) as [nd0 [A0 Q]]. exists t0, nd0, e. auto.
Qed.
Lemma grown_from id nd t0 : warmed tc t0 t -> node_at t0 id nd -> exists nd', node_at t id nd' /\ profile nd nd'.
Proof. intros W A. destruct (warmed_profile _ _ _ W) as [F _]. destruct (Forall2_nth _ _ _ _ _ F A) as [nd' [A0 Q]]. eauto. Qed.

Lemma grown_shape id nd : node_at t id nd -> (nd_left nd = None /\ nd_right nd = None) \/
     exists l r, nd_left nd = Some l /\ nd_right nd = Some r /\ l <> r /\ id < l /\ id < r /\
       (exists nl nr, node_at t l nl /\ node_at t r nr /\ nd_parent nl = Some id /\ nd_parent nr = Some id).
Proof.
  intros A. destruct (grown_node id nd A) as (t0 & nd0 & e & B & W & A0 & a1 & a2 & a3 & ->). pose proof (built_tinv P M tc a e t0 B NE) as T. cbn [with_preds nd_left nd_right].
  destruct (nd_left nd0) as [l|] eqn:E.
  - right. destruct (ti_inner _ _ _ _ _ _ _ _ T id nd0 A0) as (l' & r & nl & nr & s & v & x & E1 & E2 & L1 & L2 & NQ & N1 & N2 & P1 & P2 & _); [congruence|].
    exists l', r. ands; auto; try congruence. destruct (grown_from l' nl t0 W N1) as (nl' & N1' & b1 & b2 & b3 & ->). destruct (grown_from r nr t0 W N2) as (nr' & N2' & d1 & d2 & d3 & ->). eauto 10.
  - left. destruct (ti_leaf _ _ _ _ _ _ _ _ T id nd0 A0 E). auto.
Qed.
Lemma grown_parent id nd : node_at t id nd -> 0 < id -> exists p pn, nd_parent nd = Some p /\ p < id /\ node_at t p pn /\ (nd_left pn = Some id \/ nd_right pn = Some id).
Proof.
  intros A Z. destruct (grown_node id nd A) as (t0 & nd0 & e & B & W & A0 & a1 & a2 & a3 & ->). pose proof (built_tinv P M tc a e t0 B NE) as T. cbn [with_preds nd_parent].
  destruct (ti_parent _ _ _ _ _ _ _ _ T id nd0 A0 Z) as (p & pn & E1 & E2 & E3 & E4). destruct (grown_from p pn t0 W E3) as (pn' & N1' & b1 & b2 & b3 & ->). exists p, (with_preds pn b1 b2 b3). ands; auto.
Qed.
Lemma grown_nodes : 0 < length (t_nodes t).
Proof.
  destruct G as (e & t0 & B & W). destruct (warmed_profile _ _ _ W) as [F _]. pose proof (built_tinv P M tc a e t0 B NE) as T. destruct (ti_root _ _ _ _ _ _ _ _ T) as (r & A & _).
  rewrite <- (Forall2_len _ _ _ F). apply Nat.le_lt_trans with 0; [lia|]. apply nth_error_Some. unfold node_at in A. congruence.
Qed.
Lemma prop_pos nd : node_ok M tc (ta_data a) (ta_labels a) (train_feats a) (train_rows a) nd -> (0 < nd_prop nd)%Qc.
Proof.
  intros N. rewrite (no_prop _ _ _ _ _ _ _ N). pose proof (no_ne _ _ _ _ _ _ _ N) as NI. unfold Qcdiv. apply qmult_lt_0; [apply Nq_pos; destruct (nd_idcs nd); [contradiction|cbn; lia]|].
  apply qinv_pos, Nq_pos. destruct (train_rows a); [contradiction|cbn; lia].
Qed.
Lemma grown_gain id nd x : node_at t id nd -> nd_red nd = Some x -> below0 x /\ exists s, nd_sf nd = Some s /\ In s (train_feats a).
Proof.
  intros A R. destruct (grown_node id nd A) as (t0 & nd0 & e & B & W & A0 & a1 & a2 & a3 & ->). pose proof (built_tinv P M tc a e t0 B NE) as T. cbn [with_preds nd_red nd_sf] in *.
  pose proof (ti_node _ _ _ _ _ _ _ _ T _ _ A0) as N. destruct (nd_sf nd0) as [s|] eqn:S; [|rewrite (no_nosplit _ _ _ _ _ _ _ N S) in R; discriminate R].
  destruct (no_solved _ _ _ _ _ _ _ N s S) as (f & v & y & _ & _ & R' & nd1 & b & e1 & r & q & bins & e' & H1 & _ & _ & _ & H5 & H6 & _). rewrite R in R'. injection R' as <-.
  split; [|exists s; split; auto; apply (no_feats _ _ _ _ _ _ _ N); eapply nth_error_In; eauto]. apply solve_below in H1. unfold below0 in *. rewrite H6. pose proof (prop_pos nd0 N) as PP.
  destruct r as [r| | |]; cbn in *; try discriminate H1.
  - apply qlt_spec in H1. apply qlt_spec. replace (Q2Qc 0) with (0 * nd_prop nd0)%Qc by ring. apply Qcmult_lt_compat_r; auto.
  - unfold xsign. rewrite (proj1 (Qcgt_alt (nd_prop nd0) 0) PP). reflexivity.
Qed.
End Grown.

(** ** The importance array *)
Lemma gains_seq t j : gains t j (seq 0 (length (t_nodes t))) = evaluated t j.
Proof.
  unfold gains, evaluated. set (f := fun i => match nth_error (t_nodes t) i with Some nd => gain_of j nd | None => [] end).
  assert (H : forall l k, (forall i nd, nth_error l i = Some nd -> nth_error (t_nodes t) (k + i) = Some nd) -> flat_map f (seq k (length l)) = flat_map (gain_of j) l).
  { induction l as [|nd l IH]; intros k H; auto. cbn [length seq flat_map]. f_equal.
    - unfold f. rewrite <- (Nat.add_0_r k), (H 0 nd eq_refl). reflexivity.
    - apply IH. intros i nd' E. rewrite Nat.add_succ_comm. now apply H. }
  apply (H (t_nodes t) 0). auto.
Qed.
Lemma flat_map_perm {A B} (f : A -> list B) l m : Permutation l m -> Permutation (flat_map f l) (flat_map f m).
Proof.
  induction 1; cbn; auto.
  - now apply Permutation_app_head.
  - rewrite !app_assoc. apply Permutation_app_tail, Permutation_app_comm.
  - etransitivity; eauto.
Qed.
Lemma evaluated_below P M tc a t j : grown P M tc a t -> train_rows a <> [] -> Forall below0 (evaluated t j).
Proof.
  intros G NE. apply Forall_forall. intros x I. apply in_flat_map in I. destruct I as [nd [I H]]. apply In_nth_error in I. destruct I as [id A]. change (node_at t id nd) in A.
  destruct (nd_sf nd) as [s|]; [|destruct H]. destruct (nd_red nd) as [y|] eqn:R; [|destruct H]. destruct (s =? j); [|destruct H]. destruct H as [->|[]]. eapply grown_gain; eauto.
Qed.
Lemma mdi_tree P M tc a t W arr : grown P M tc a t -> train_rows a <> [] -> (forall s, In s (train_feats a) -> s < W) -> length arr = W ->
  exists arr', mdi_helper (t_nodes t) (length (t_nodes t)) 0 arr = Ok arr' /\ length arr' = W /\ forall j v, nth_error arr j = Some v -> nth_error arr' j = Some (xadd v (xtotal (evaluated t j))).
Proof.
  intros G NE FW LA. pose proof (grown_shape M P tc a t G NE) as SH. pose proof (grown_parent M P tc a t G NE) as PA. pose proof (grown_nodes M P tc a t G NE) as NN.
  assert (SW : forall id nd x, node_at t id nd -> nd_red nd = Some x -> exists s, nd_sf nd = Some s /\ s < W).
  { intros id nd x A R. destruct (grown_gain M P tc a t G NE id nd x A R) as [_ [s [E I]]]. exists s. auto. }
  destruct (helper_spec t NN SH W SW (length (t_nodes t)) 0 arr) as (arr' & l & H1 & V & H2 & H3); auto; try lia.
  exists arr'. split; auto. split; auto. intros j v E. rewrite (H3 j v E). f_equal. f_equal. rewrite <- gains_seq. apply xtotal_perm, flat_map_perm. eapply visits_all; eauto.
Qed.

(** Reductions of splits that were computed but not made. *)
Definition unmade (t : tree) (j : nat) : list xn :=
  flat_map (fun nd => match nd_left nd with Some _ => [] | None => gain_of j nd end) (t_nodes t).
Lemma made_unmade t j : Permutation (evaluated t j) (made t j ++ unmade t j).
Proof.
  unfold evaluated, made, unmade. induction (t_nodes t) as [|nd l IH]; cbn [flat_map app]; auto.
  change (match nd_sf nd with Some s => match nd_red nd with Some x => if s =? j then [x] else [] | None => [] end | None => [] end) with (gain_of j nd). destruct (nd_left nd); cbn [app].
  - change (match nd_sf nd with Some s => match nd_red nd with Some x => if s =? j then [x] else [] | None => [] end | None => [] end) with (gain_of j nd). rewrite <- app_assoc. now apply Permutation_app_head.
  - etransitivity; [apply Permutation_app_head, IH|]. apply Permutation_app_swap_app.
Qed.

Section Use.
Context (M : math) (P : prng) (c : fcfg) (f0 : forest) (arg : option (list (list Qc)) * option nat) (h0 : heap) (e0 : env) (f1 : forest) (h1 : heap) (e1 : env) (f : forest).
Context (HF : forest_fit M P c f0 arg h0 e0 = Ok (f1, h1, e1)) (HU : used c h1 f1 f).
Context (data : list (list Qc)) (HD : fit_data f0 arg = Some data) (SR : some_rows c (length data)).

Lemma mdi_sum : f_mdg f = None -> exists r0 arr f', nth_error data 0 = Some r0 /\ calculate_mdi f = Ok (arr, f') /\ length arr = length r0 /\
  forall j v, nth_error arr j = Some v -> v = xtotal (flat_map (fun ct => evaluated (snd ct) j) (f_trees f)).
Proof.
  intros MN. destruct (use_infos M P c f0 arg h0 e0 f1 h1 e1 f HF HU data HD) as (F & g1 & hh & infos & SD & IN & _ & _ & _ & _ & DF & _ & _).
  destruct (sd_F _ _ _ _ _ _ _ _ SD) as (r0 & E0 & <-). unfold calculate_mdi. rewrite MN, DF. cbn [opt_res rbind]. unfold nth_res at 1. rewrite E0. cbn [rbind].
  assert (K : forall ts infos arr, Forall2 (info M P c data (length r0) g1 hh) ts infos -> length arr = length r0 ->
     exists arr', foldM (fun a ct => mdi_helper (t_nodes (snd ct)) (length (t_nodes (snd ct))) 0 a) arr ts = Ok arr' /\ length arr' = length r0 /\
       forall j v, nth_error arr j = Some v -> nth_error arr' j = Some (xadd v (xtotal (flat_map (fun ct => evaluated (snd ct) j) ts)))).
  { clear -SR. induction ts as [|ct ts IH]; intros infos arr IN LA; inversion IN; subst.
    - exists arr. cbn. split; auto. split; auto. intros j v E. now rewrite xadd_0.
    - destruct H1 as [I1 I2 I3 I4 I5]. destruct (mdi_tree P M (fst ct) y (snd ct) (length r0) arr) as (a1 & G1 & G2 & G3); auto.
      { now apply (ao_some _ _ _ _ _ I3). } { apply (ao_feats _ _ _ _ _ I3). }
      cbn [foldM]. rewrite G1. cbn [rbind]. destruct (IH l' a1 H3 G2) as (a2 & K1 & K2 & K3). exists a2. split; auto. split; auto. intros j v E. rewrite (K3 j _ (G3 j v E)). cbn [flat_map]. now rewrite xtotal_app, xadd_assoc. }
  destruct (K (f_trees f) infos (repeat (Fin 0) (length r0)) IN (repeat_length _ _)) as (arr & K1 & K2 & K3). rewrite K1. cbn [rbind].
  exists r0, arr. eexists. split; auto. split; [reflexivity|]. split; auto. intros j v E. assert (LJ : j < length r0) by (rewrite <- K2; apply nth_error_Some; congruence).
  rewrite (K3 j (Fin 0)) in E by (apply nth_error_repeat; auto). rewrite xadd_0l in E. congruence.
Qed.
Lemma mdi_signs j : Forall below0 (flat_map (fun ct => evaluated (snd ct) j) (f_trees f)) /\
  xle (xtotal (flat_map (fun ct => evaluated (snd ct) j) (f_trees f))) (xtotal (flat_map (fun ct => made (snd ct) j) (f_trees f))) = true /\
  xle (xtotal (flat_map (fun ct => made (snd ct) j) (f_trees f))) (Fin 0) = true.
Proof.
  destruct (use_infos M P c f0 arg h0 e0 f1 h1 e1 f HF HU data HD) as (F & g1 & hh & infos & SD & IN & _).
  assert (A : Forall below0 (flat_map (fun ct => evaluated (snd ct) j) (f_trees f))).
  { clear -IN SR. induction IN as [|ct y ts infos [I1 I2 I3 I4 I5] IN IH]; cbn [flat_map]; auto. apply Forall_app. split; auto. eapply evaluated_below; eauto. now apply (ao_some _ _ _ _ _ I3). }
  split; auto. assert (PM : Permutation (flat_map (fun ct => evaluated (snd ct) j) (f_trees f)) (flat_map (fun ct => made (snd ct) j) (f_trees f) ++ flat_map (fun ct => unmade (snd ct) j) (f_trees f))).
  { clear. induction (f_trees f) as [|ct ts IH]; cbn [flat_map app]; auto. etransitivity; [apply Permutation_app; [apply made_unmade|exact IH]|]. rewrite <- !app_assoc. apply Permutation_app_head. rewrite !app_assoc. apply Permutation_app_tail, Permutation_app_comm. }
  rewrite (xtotal_perm _ _ PM). assert (B : Forall below0 (flat_map (fun ct => made (snd ct) j) (f_trees f) ++ flat_map (fun ct => unmade (snd ct) j) (f_trees f))) by (eapply Permutation_Forall; eauto).
  apply Forall_app in B. destruct B as [B1 B2]. pose proof (xtotal_below _ B1) as Z. split; auto. rewrite xtotal_app. now apply xle_add_below.
Qed.
End Use.

(** ** Without limits every computed split is made *)
Section NoLimits.
Context (M : math) (c : tcfg) (D : list (list Qc)) (L : list Qc) (FS I0 : list nat) (b0 : option Z).
Notation inv := (tinv M c D L FS I0 b0).
(** The best split is only computed for leaves that may be split. *)
Definition computed_ok (t : tree) : Prop := forall id nd, node_at t id nd -> nd_left nd = None -> nd_computed nd = true -> check_constraints c nd = Ok true.

Lemma scan_computed s pos id s' : inv (sc_tree s) -> In id (t_leaves (sc_tree s)) -> computed_ok (sc_tree s) -> scan_leaf M c s (pos, id) = Ok s' -> computed_ok (sc_tree s').
Proof.
  intros T IL CO H. unfold scan_leaf in H. destruct (sc_stop s); [injection H as <-; auto|]. apply rbind_ok in H. destruct H as [nd [A H]]. apply nth_res_ok in A. change (node_at (sc_tree s) id nd) in A.
  assert (LF : nd_left nd = None). { apply (ti_leaves _ _ _ _ _ _ _ _ T) in IL. destruct IL as [x [H1 H2]]. unfold node_at in *. congruence. }
  pose proof (ti_node _ _ _ _ _ _ _ _ T _ _ A) as N. apply rbind_ok in H. destruct H as [ok [CC H]]. destruct ok; cbn [negb] in H.
  2:{ injection H as <-. cbn [sc_tree]. intros j x Ax Lx Cx. apply (node_at_put _ _ _ j nd A) in Ax. destruct Ax as [[-> ->]|[NE Ax]]; [|eapply CO; eauto]. cbn in Cx. rewrite (CO id nd A LF Cx) in CC. discriminate CC. }
  destruct (match t_budget (sc_tree s) with None => false | Some b => (b <=? 0)%Z end); [injection H as <-; auto|].
  apply rbind_ok in H. destruct H as [[[nd1 red] e1] [EB H]]. destruct (best_split_ok _ _ _ _ _ _ _ _ _ _ _ _ N LF (or_intror CC) EB) as [K1 [K2 [K3 [K4 [K5 K6]]]]].
  set (t2 := if nd_computed nd then put_node (sc_tree s) id nd1 else pay (put_node (sc_tree s) id nd1) (nd_queries nd1)) in *.
  assert (N2 : t_nodes t2 = t_nodes (put_node (sc_tree s) id nd1)). { unfold t2. destruct (nd_computed nd); reflexivity. } clearbody t2.
  apply rbind_ok in H. destruct H as [[[spl nd3] e3] [EQ H]]. injection H as <-. cbn [sc_tree].
  assert (K : same_shape nd1 nd3).
  { destruct (nd_splittable nd1) as [b|] eqn:SP; [injection EQ as <- <- <-; apply same_shape_refl|]. apply rbind_ok in EQ. destruct EQ as [[[b nd2] e2] [EC EQ]]. injection EQ as <- <- <-.
    destruct (split_test M c (t_n t2) _ _ _ _ _ _ K4 eq_refl EC) as [-> _]. apply splittable_shape. }
  assert (CT : check_constraints c nd3 = Ok true) by (rewrite (constraints_shape c nd1 nd3 K), (constraints_shape c nd nd1 K3); exact CC).
  assert (A2 : node_at t2 id nd1). { unfold node_at. rewrite N2. apply (node_at_put (sc_tree s) id nd1 id nd A nd1). auto. }
  intros j x Ax Lx Cx. apply (node_at_put t2 id nd3 j nd1 A2) in Ax. destruct Ax as [[-> ->]|[NE Ax]]; auto. unfold node_at in Ax. rewrite N2 in Ax.
  apply (node_at_put (sc_tree s) id nd1 j nd A x) in Ax. destruct Ax as [[-> _]|[_ Ax]]; [contradiction|eapply CO; eauto].
Qed.
Lemma scan_all_computed t e s : inv t -> computed_ok t ->
  foldM (scan_leaf M c) {| sc_tree := t; sc_env := e; sc_best := None; sc_stop := false |} (combine (seq 0 (length (t_leaves t))) (t_leaves t)) = Ok s -> computed_ok (sc_tree s).
Proof.
  intros T CO H. revert H. apply (foldM_inv (scan_leaf M c) (fun s => scan_ok M c D L FS I0 b0 t s /\ computed_ok (sc_tree s))).
  - split; auto. constructor; cbn; auto.
  - intros [pos id] s1 s2 I [S C] HS.
    assert (PP : nth_error (t_leaves t) pos = Some id).
    { apply In_nth_error in I. destruct I as [k I]. rewrite combine_nth_error in I.
      destruct (nth_error (seq 0 (length (t_leaves t))) k) eqn:E1; [|discriminate]. destruct (nth_error (t_leaves t) k) eqn:E2; [|discriminate].
      injection I as <- <-. rewrite nth_error_nth' with (d := 0) in E1 by (apply nth_error_Some; congruence).
      assert (k < length (t_leaves t)) by (apply nth_error_Some; congruence). rewrite seq_nth in E1 by auto. injection E1 as <-. auto. }
    split; [eapply scan_leaf_ok; eauto|]. destruct S as [T1 L1 _ _ _]. eapply scan_computed; eauto. rewrite L1. eapply nth_error_In; eauto.
Qed.
Lemma split_fresh t id e t' e' : node_split M c t id e = Ok (t', e') -> length (t_nodes t') = length (t_nodes t) \/ exists l nl nr, t_nodes t' = l ++ [nl; nr] /\ nd_computed nl = false /\ nd_computed nr = false.
Proof.
  assert (FR : forall t p I d pr bins e nd e', node_new c t p I d pr bins e = Ok (nd, e') -> nd_computed nd = false).
  { intros t0 p I d pr bins e2 nd e3 Q. unfold node_new in Q. apply rbind_ok in Q. destruct Q as [[fs g] [_ Q]]. apply rbind_ok in Q. destruct Q as [_ [_ Q]]. apply rbind_ok in Q. destruct Q as [dd [_ Q]].
    apply rbind_ok in Q. destruct Q as [ll [_ Q]]. apply rbind_ok in Q. destruct Q as [mm [_ Q]]. apply rbind_ok in Q. destruct Q as [cs [_ Q]]. apply ok_pair_inv in Q. destruct Q as [<- _]. reflexivity. }
  unfold node_split. intros H. apply rbind_ok in H. destruct H as [nd0 [_ H]]. apply rbind_ok in H. destruct H as [_ [_ H]]. apply rbind_ok in H. destruct H as [[nd e2] [_ H]].
  destruct (nd_red nd); [|apply ok_pair_inv in H; destruct H as [<- _]; left; cbn; apply set_nth_length].
  do 6 (apply rbind_ok in H; let x := fresh in destruct H as [x [_ H]]). cbv zeta in H. match type of H with (if ?b then _ else _) = _ => destruct b; [discriminate H|] end.
  apply rbind_ok in H. destruct H as [[nl e3] [C1 H]]. apply rbind_ok in H. destruct H as [[nr e4] [C2 H]]. cbn [fst snd] in *. apply ok_pair_inv in H. destruct H as [<- _]. right. unfold create_child in *. cbn. eexists _, nl, nr. split; [reflexivity|]. split; eapply FR; eauto.
Qed.
Lemma step_computed t e t' e' b : inv t -> computed_ok t -> fit_step M c t e = Ok (t', e', b) -> computed_ok t'.
Proof.
  intros T CO H. unfold fit_step in H. apply rbind_ok in H. destruct H as [s [ES H]]. cbv zeta in H.
  pose proof (scan_all_computed _ _ _ T CO ES) as CO'. destruct (scan_ok_all _ _ _ _ _ _ _ _ _ _ T ES) as [T1 L1 S1 NN1 B1].
  apply rbind_ok in H. destruct H as [[[t3 e3] cont] [EC H]]. apply rbind_ok in H. destruct H as [d [_ H]]. injection H as <- <- ->.
  destruct (sc_best s) as [[[pos id] x]|]; [|injection EC as <- _ _; exact CO']. destruct (xlt x (Fin (tc_min_imp c))) eqn:X; [|injection EC as <- _ _; exact CO'].
  destruct B1 as [P [nd [A [LF [CC [RX SP]]]]]].
  apply rbind_ok in EC. destruct EC as [[t2 e2] [E2 EC]]. cbn [fst snd] in EC. apply rbind_ok in EC. destruct EC as [nd2 [A2 EC]]. apply nth_res_ok in A2.
  apply ok_pair_inv in EC. destruct EC as [EC _]. injection EC as <- <-.
  destruct (fit_step_split _ _ _ _ _ _ _ _ _ _ _ _ _ _ _ T1 P A LF CC RX X E2) as [nl [nr [nd' [TE [A' [EN' [TI NW]]]]]]].
  assert (LT : id < length (t_nodes (sc_tree s))) by (apply nth_error_Some; unfold node_at in A; congruence).
  assert (FR : nd_computed nl = false /\ nd_computed nr = false).
  { destruct (split_fresh _ _ _ _ _ E2) as [Q|(l & nl' & nr' & Q & Q1 & Q2)].
    - exfalso. rewrite TE in Q. cbn in Q. rewrite app_length, set_nth_length in Q. cbn in Q. lia.
    - rewrite TE in Q. cbn [set_nodes t_nodes] in Q. change [nl; nr] with ([nl] ++ [nr]) in Q. change [nl'; nr'] with ([nl'] ++ [nr']) in Q. rewrite !app_assoc in Q. apply app_inj_tail in Q. destruct Q as [Q ->]. apply app_inj_tail in Q. destruct Q as [_ ->]. auto. }
  assert (E2n : nd2 = nd').  { cbn [inc_splits t_nodes] in A2. unfold node_at in A'. congruence. } subst nd2.
  intros j xx Ax Lx Sx. unfold node_at in Ax. cbn [set_depth set_leaves put_node set_nodes inc_splits t_nodes] in Ax. rewrite TE in Ax. cbn [set_nodes t_nodes] in Ax.
  rewrite set_nth_nth, !set_nth_app_nth, Nat.eqb_refl in Ax by auto. destruct (Nat.eqb_spec j id) as [->|NE].
  - injection Ax as <-. rewrite EN' in Lx. cbn in Lx. discriminate Lx.
  - destruct (Nat.ltb_spec j (length (t_nodes (sc_tree s)))); [eapply CO'; eauto|].
    exfalso. destruct FR. destruct (j - length (t_nodes (sc_tree s))) as [|[|k]]; cbn in Ax; [injection Ax as <-; congruence|injection Ax as <-; congruence|destruct k; discriminate Ax].
Qed.
Lemma loop_computed fuel : forall t e t' e', inv t -> computed_ok t -> fit_loop M c fuel t e = Ok (t', e') -> computed_ok t'.
Proof.
  induction fuel as [|fuel IH]; intros t e t' e' T CO H; cbn [fit_loop] in H; apply rbind_ok in H; destruct H as [stop [ES H]].
  - destruct stop; [|discriminate H]. apply ok_pair_inv in H. destruct H as [<- _]. auto.
  - destruct stop; [apply ok_pair_inv in H; destruct H as [<- _]; auto|]. apply rbind_ok in H. destruct H as [[[t1 e1] cont] [E1 H]].
    pose proof (step_computed _ _ _ _ _ T CO E1) as CO1. destruct cont; [|apply ok_pair_inv in H; destruct H as [<- _]; auto]. destruct (fit_step_tinv _ _ _ _ _ _ _ _ _ _ _ _ T E1) as [T1 _]. eapply IH; eauto.
Qed.
End NoLimits.

Lemma below_scale x m k : below0 x -> (0 < m)%Qc -> (0 < k)%Qc -> below0 (xdiv (xmul x (Fin m)) (Fin k)).
Proof.
  unfold below0. intros X M0 K0. assert (KZ : qeq k 0 = false). { destruct (qeq k 0) eqn:Z; auto. apply qeq_spec in Z. subst. exfalso. exact (Qclt_not_le _ _ K0 (Qcle_refl _)). }
  destruct x as [x| | |]; cbn [xmul xlt] in *; try discriminate X.
  - cbn [xdiv]. rewrite KZ. cbn [xlt]. apply qlt_spec in X. apply qlt_spec. unfold Qcdiv. assert (KI : (0 < / k)%Qc) by now apply qinv_pos.
    replace (Q2Qc 0) with (0 * / k)%Qc by ring. apply Qcmult_lt_compat_r; auto. replace (Q2Qc 0) with (0 * m)%Qc by ring. now apply Qcmult_lt_compat_r.
  - unfold xsign. rewrite (proj1 (Qcgt_alt m 0) M0). cbn [xinf_mul xdiv]. rewrite KZ. unfold xsign. rewrite (proj1 (Qcgt_alt k 0) K0). reflexivity.
Qed.
Lemma grown_all_made P M tc a t j : grown P M tc a t -> train_rows a <> [] -> ta_budget a = None -> (0 <= tc_min_imp tc)%Qc -> tc_max_leaves tc <> Some (length (t_leaves t)) -> unmade t j = [].
Proof.
  intros G NE BN MI ML. destruct G as (e & t0 & B & W). destruct (warmed_profile _ _ _ W) as (F & _ & EL). rewrite EL in ML. clear EL.
  destruct (built_loop P M tc a e t0 B NE) as (t1 & e0 & d & fuel & e1 & HN & HL & T0 & _). destruct (new_spec _ _ _ _ _ _ HN) as (nd0 & e2 & ENN & ET & _).
  assert (FR : nd_computed nd0 = false /\ nd_splittable nd0 = None).
  { unfold node_new in ENN. apply rbind_ok in ENN. destruct ENN as [[fs g] [_ Q]]. apply rbind_ok in Q. destruct Q as [_ [_ Q]]. apply rbind_ok in Q. destruct Q as [dd [_ Q]].
    apply rbind_ok in Q. destruct Q as [ll [_ Q]]. apply rbind_ok in Q. destruct Q as [mm [_ Q]]. apply rbind_ok in Q. destruct Q as [cs [_ Q]]. apply ok_pair_inv in Q. destruct Q as [<- _]. auto. }
  destruct FR as [FR1 FR2].
  assert (ST : forall j x, node_at (start_tree t1 d) j x -> x = nd0).
  { intros j0 x Ax. rewrite ET in Ax. unfold node_at in Ax. destruct j0 as [|[|j0]]; cbn in Ax; try discriminate Ax. congruence. }
  assert (FL : flags tc (length (ta_labels a)) (start_tree t1 d)). { split; [rewrite ET; reflexivity|]. intros j0 x Ax _ Sx. rewrite (ST _ _ Ax) in Sx. congruence. }
  assert (BS : t_budget (start_tree t1 d) = None) by (rewrite ET; cbn; auto).
  assert (CO : computed_ok tc t0). { eapply loop_computed; eauto. intros j0 x Ax _ Cx. rewrite (ST _ _ Ax) in Cx. congruence. }
  destruct (loop_search M tc _ _ _ _ _ (length (ta_labels a)) fuel _ _ _ _ T0 FL BS HL) as [X|X]; [contradiction|].
  pose proof (built_tinv P M tc a e t0 B NE) as T.
  assert (LP : 0 < length (ta_labels a)).
  { destruct (ti_root _ _ _ _ _ _ _ _ T) as (r & A & EI & _). pose proof (no_range _ _ _ _ _ _ _ (ti_node _ _ _ _ _ _ _ _ T _ _ A)) as RG. rewrite EI in RG. destruct (train_rows a) as [|i l]; [contradiction|]. destruct (RG i (or_introl eq_refl)). lia. }
  assert (NR : forall id nd, node_at t0 id nd -> nd_left nd = None -> nd_red nd = None).
  { intros id nd A LF. destruct (nd_red nd) as [x|] eqn:R; auto. exfalso.
    destruct (grown_gain M P tc a t0) with (id := id) (nd := nd) (x := x) as [LT (s & SF & _)]; auto. { exists e, t0. split; auto. apply warmed_refl. }
    pose proof (ti_node _ _ _ _ _ _ _ _ T _ _ A) as N. assert (C : nd_computed nd = true). { destruct (nd_computed nd) eqn:C; auto. destruct (no_fresh _ _ _ _ _ _ _ N C). congruence. }
    pose proof (CO id nd A LF C) as CC. assert (IL : In id (t_leaves t0)) by (apply (ti_leaves _ _ _ _ _ _ _ _ T); eauto). destruct (X id IL) as (nd' & A' & _ & HH). assert (nd' = nd) by (unfold node_at in *; congruence). subst nd'.
    assert (LM : forall y, below0 y -> xlt y (Fin (tc_min_imp tc)) = true).
    { unfold below0. intros [y| | |] Y; cbn in *; try discriminate Y; auto. apply qlt_spec in Y. apply qlt_spec. eapply Qclt_le_trans; eauto. }
    destruct HH as [[HH|[_ [HH|(y & RY & HW)]]]|[_ (y & RY & HW)]]; try congruence.
    - assert (y = x) by congruence. subst y. unfold weighted in HW. rewrite LM in HW; [discriminate HW|]. unfold below0 in *.
      assert (ND : (0 < Nq (nd_n nd))%Qc). { apply Nq_pos. rewrite (no_n _ _ _ _ _ _ _ N). pose proof (no_ne _ _ _ _ _ _ _ N). destruct (nd_idcs nd); [contradiction|cbn; lia]. }
      assert (NL : (0 < Nq (length (ta_labels a)))%Qc) by (apply Nq_pos; auto).
      now apply below_scale.
    - assert (y = x) by congruence. subst y. rewrite LM in HW; [discriminate HW|auto]. }
  unfold unmade. assert (K : forall l l', Forall2 profile l l' -> (forall nd, In nd l -> nd_left nd = None -> nd_red nd = None) -> flat_map (fun nd => match nd_left nd with Some _ => [] | None => gain_of j nd end) l' = []).
  { induction 1 as [|x y l l' (a1 & a2 & a3 & ->) F' IH]; intros H; auto. cbn [flat_map with_preds nd_left]. rewrite IH by (intros; apply H; auto; now right). rewrite app_nil_r. destruct (nd_left x) eqn:E; auto. unfold gain_of. cbn [with_preds nd_sf nd_red]. rewrite (H x (or_introl eq_refl) E). destruct (nd_sf x); auto. }
  apply (K _ _ F). intros nd I E. apply In_nth_error in I. destruct I as [id A]. apply (NR id nd A E).
Qed.

Lemma mdi_all_made M P c f0 arg h0 e0 f1 h1 e1 f data j :
  forest_fit M P c f0 arg h0 e0 = Ok (f1, h1, e1) -> used c h1 f1 f -> fit_data f0 arg = Some data -> some_rows c (length data) ->
  f_budget f0 = None -> (0 <= fc_min_imp c)%Qc -> (forall ct, In ct (f_trees f) -> fc_max_leaves c <> Some (length (t_leaves (snd ct)))) ->
  xtotal (flat_map (fun ct => evaluated (snd ct) j) (f_trees f)) = xtotal (flat_map (fun ct => made (snd ct) j) (f_trees f)).
Proof.
  intros HF HU HD SR BN MI ML. destruct (use_infos M P c f0 arg h0 e0 f1 h1 e1 f HF HU data HD) as (F & g1 & hh & infos & SD & IN & _).
  destruct (sd_f1 _ _ _ _ _ _ _ _ SD) as (_ & _ & _ & _ & SB & _).
  clear HU. induction IN as [|ct a ts infos [I1 I2 I3 I4 I5] IN IH]; auto. cbn [flat_map]. rewrite !xtotal_app. f_equal; [|apply IH; intros; apply ML; now right].
  rewrite (xtotal_perm _ _ (made_unmade (snd ct) j)), (grown_all_made P M (fst ct) a (snd ct) j), app_nil_r; auto.
  - now apply (ao_some _ _ _ _ _ I3).
  - apply I5. congruence.
  - rewrite I1. exact MI.
  - rewrite I1. cbn. apply ML. now left.
Qed.

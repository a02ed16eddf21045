(** The course of fitting a forest: what each tree is trained on, and when fitting stops. *)
From Coq Require Import List Arith Bool ZArith QArith Qcanon Lia Permutation.
From Verif Require Import Base Num Rng Histogram Utils Criteria Solvers Tree Forest Spec SolverSpec TreeSpec ForestSpec NumFacts ListFacts HistAdd MakeHist DrawFacts TreeFacts TreeThms ForestFacts ForestThms ForestMore ForestDraws.
Import ListNotations.
Local Open Scope nat_scope.

Lemma fold_set_any (conv : Qc -> Qc) (g : nat -> Qc) idcs : forall l, (forall i, In i idcs -> i < length l) ->
  let l' := fold_left (fun l iv => set_nth (fst iv) (conv (snd iv)) l) (combine idcs (map g idcs)) l in
  length l' = length l /\ (forall i, In i idcs -> nth i l' 0%Qc = conv (g i)) /\ (forall i, ~ In i idcs -> nth i l' 0%Qc = nth i l 0%Qc).
Proof.
  induction idcs as [|k idcs IH]; intros l L; cbn [map combine fold_left fst snd].
  - split; auto. split; [intros i []|auto].
  - assert (LK : k < length l) by (apply L; now left).
    destruct (IH (set_nth k (conv (g k)) l)) as (J1 & J2 & J3); [intros i I; rewrite set_nth_length; apply L; now right|]. cbn zeta in *. rewrite set_nth_length in J1.
    assert (NS : forall i, nth i (set_nth k (conv (g k)) l) 0%Qc = if i =? k then conv (g k) else nth i l 0%Qc).
    { intros i. pose proof (set_nth_nth k (conv (g k)) l i) as Q. destruct (le_lt_dec (length l) i) as [G|G].
      - rewrite !nth_overflow by (rewrite ?set_nth_length; auto). destruct (Nat.eqb_spec i k); [lia|auto].
      - rewrite (nth_error_nth' l 0%Qc G), (nth_error_nth' l 0%Qc LK) in Q. destruct (i =? k) eqn:EI; apply nth_error_nth with (d := 0%Qc) in Q; exact Q. }
    split; auto. split.
    + intros i I. destruct (in_dec Nat.eq_dec i idcs) as [I'|NI]; [auto|]. destruct I as [<-|I]; [|contradiction]. rewrite J3 by auto. rewrite NS, Nat.eqb_refl. reflexivity.
    + intros i NI. rewrite J3 by (intros I; apply NI; now right). rewrite NS. destruct (Nat.eqb_spec i k) as [->|]; [|auto]. exfalso. apply NI. now left.
Qed.

Lemma boost_targets c k tc t0 data a P M e newr h t h' la : built P M tc a e t0 ->
  boost c k tc t0 data (train_rows a) newr h = Ok (t, h') -> nth_error h newr = Some la ->
  exists la', nth_error h' newr = Some la' /\ la_int la' = la_int la /\ boost_round c k tc t data (train_rows a) (la_int la) (la_vals la) (la_vals la').
Proof.
  intros B H HA. set (rows := train_rows a) in *. unfold boost in H. apply rbind_ok in H. destruct H as [xs [E1 H]]. apply rbind_ok in H. destruct H as [[ps t'] [E2 H]]. apply rbind_ok in H. destruct H as [vs [E3 H]].
  apply rbind_ok in H. destruct H as [lr [E4 H]]. apply rbind_ok in H. destruct H as [ar [E5 H]]. apply rbind_ok in H. destruct H as [old [E6 H]]. apply rbind_ok in H. destruct H as [ns [E7 H]].
  apply rbind_ok in H. destruct H as [h2 [E8 H]]. cbn [fst snd] in *. apply ok_pair_inv in H. destruct H as [<- <-]. apply opt_res_ok in E4. apply nth_res_ok in E5. rewrite HA in E5. injection E5 as <-.
  destruct (take_idx_nth data [] _ _ E1) as [EX _]. destruct (take_idx_nth (la_vals la) 0%Qc _ _ E6) as [EO LO].
  destruct (list_eq_dec Nat.eq_dec rows []) as [Z|NE].
  { assert (EV : h2 = h).
    { rewrite Z in E8. unfold store, nth_res in E8. rewrite HA in E8. cbn [rbind forallb guard combine fold_left] in E8. injection E8 as <-. destruct la; cbn.
      clear -HA. revert newr HA. induction h as [|x h IH]; intros [|n] HA; cbn in *; try discriminate; [injection HA as ->; reflexivity|]. f_equal. now apply IH. }
    rewrite EV, Z. exists la. split; auto. split; auto. constructor; auto. intros i []. }
  pose proof (fitted_batch_pointwise P M tc a e t0 B NE xs ps t' E2) as BP. apply mapM_Forall2 in BP. pose proof (mapM_length _ _ _ E3) as LV. pose proof (Forall2_len _ _ _ BP) as LP.
  assert (LX : length xs = length rows) by (rewrite EX, map_length; auto).
  (* what the tree answers on row i *)
  set (ans := fun i => match answer (tree_predict tc t' (nth i data [])) with Ok (PReg v) => v | _ => 0%Qc end).
  assert (PV : forall j i, nth_error rows j = Some i -> answer (tree_predict tc t' (nth i data [])) = Ok (PReg (ans i)) /\ nth_error vs j = Some (ans i)).
  { intros j i J. assert (XJ : nth_error xs j = Some (nth i data [])) by (rewrite EX, nth_error_map, J; reflexivity).
    destruct (Forall2_nth _ _ _ _ _ BP XJ) as (p & EP & AP). destruct (mapM_nth' _ _ _ _ _ E3 EP) as (v & EV1 & EV2). destruct p as [l q|v']; [discriminate|]. injection EV2 as ->.
    assert (A : answer (tree_predict tc t' (nth i data [])) = Ok (PReg v)) by (rewrite (fitted_memoryless P M tc a e t0 B NE xs ps t' _ E2); exact AP).
    unfold ans. rewrite A. auto. }
  set (g := fun i => (nth i (la_vals la) 0 - (if k =? 0 then ans i else lr * ans i))%Qc).
  assert (EN : map nan_to_num ns = map g rows).
  { set (vs' := if k =? 0 then vs else map (fun p => (p * lr)%Qc) vs) in *.
    assert (XS : ns = map (fun tp => Fin (fst tp - snd tp)%Qc) (combine old vs')).
    { apply (mapM_ok_map _ (fun tp => Fin (fst tp - snd tp)%Qc)) in E7; auto. intros tp y _ Q. cbn in Q. injection Q as <-. reflexivity. }
    rewrite XS, map_map. cbn [nan_to_num]. rewrite EO. apply list_ext. intros j. rewrite !nth_error_map, combine_nth_error, nth_error_map.
    destruct (nth_error rows j) as [i|] eqn:J; cbn [option_map]; [|reflexivity]. destruct (PV _ _ J) as [_ PJ].
    assert (VJ : nth_error vs' j = Some (if k =? 0 then ans i else lr * ans i)%Qc).
    { unfold vs'. destruct (k =? 0); auto. rewrite nth_error_map, PJ. cbn. f_equal. ring. }
    rewrite VJ. reflexivity. }
  rewrite EN in E8. unfold store, nth_res in E8. rewrite HA in E8. cbn [rbind] in E8. apply rbind_ok in E8. destruct E8 as [u [_ E8]]. injection E8 as <-.
  destruct (fold_set_any (fun v => if la_int la then trunc v else v) g rows (la_vals la) LO) as (F1 & F2 & F3). cbn zeta in *.
  eexists. split; [rewrite set_nth_nth, Nat.eqb_refl, HA; reflexivity|]. cbn [la_int la_vals]. split; [reflexivity|]. constructor; auto.
  intros i I. split; [now apply LO|]. apply In_nth_error in I as J. destruct J as [j J]. exists (ans i), lr. split; [apply (PV _ _ J)|]. split; auto. rewrite F2 by auto. reflexivity.
Qed.

Section Run.
Context (M : math) (P : prng) (c : fcfg) (data : list (list Qc)) (F : nat).
Let N := length data.

Lemma step_full s i s' : fit_tree M P c data F s i = Ok s' -> fs_stop s = false ->
  let f := fs_f s in let tc := tree_cfg c (f_classes f) (f_minmax f) in
  (fs_stop s' = true /\ fs_h s' = fs_h s /\ (exists oob gen, fs_f s' = upd_forest f (f_trees f) (f_budget f) (f_queries f) oob gen) /\
   exists b, f_budget f = Some b /\ ((b <= 0)%Z \/ exists a e t, built P M tc a e t /\ ta_data a = data /\ sampled c N F (train_rows a) (train_feats a) /\ ta_budget a = Some b /\
     (t_queries t = 0 \/ (b + 1000000 <= Z.of_nat (t_queries t))%Z))) \/
  (fs_stop s' = false /\ exists a t0 t e0 gen oob r newr la,
     fs_f s' = upd_forest f (f_trees f ++ [(tc, t)]) (budget_left (f_budget f) (t_queries t)) (f_queries f + t_queries t) oob gen /\
     built P M tc a e0 t0 /\ warmed tc t0 t /\ ta_data a = data /\ sampled c N F (train_rows a) (train_feats a) /\ ta_budget a = f_budget f /\ affordable (f_budget f) (t_queries t) /\
     label_ref c f = Some r /\ nth_res (fs_h s) r = Ok la /\ ta_labels a = la_vals la /\ f_new f = Some newr /\
     (if fc_boosting c then boost c i tc t0 data (train_rows a) newr (fs_h s) = Ok (t, fs_h s') else fs_h s' = fs_h s)).
Proof.
  intros H S f tc. unfold fit_tree in H. rewrite S in H. fold f in H. change (length data) with N in H. apply rbind_ok in H. destruct H as [[[rows feats] gen1] [ED H]].
  destruct (match f_budget f with Some b => (b <=? 0)%Z | None => false end) eqn:BB.
  - injection H as <-. left. cbn [fs_stop fs_h fs_f]. split; auto. split; auto. split; [eauto|]. destruct (f_budget f) as [b|]; [|discriminate]. exists b. apply Z.leb_le in BB. auto.
  - apply rbind_ok in H. destruct H as [orgr [EO H]]. apply rbind_ok in H. destruct H as [newr [EN H]]. apply rbind_ok in H. destruct H as [[rows2 gen2] [EB H]].
    destruct (draw (e_np (fs_e s))) as [seed np'] eqn:DR. apply rbind_ok in H. destruct H as [la [EL H]].
    apply rbind_ok in H. destruct H as [[t1 e1] [E1 H]]. apply rbind_ok in H. destruct H as [[t0 e2] [E2 H]]. cbn [fst snd] in E1, E2.
    apply opt_res_ok in EO. apply opt_res_ok in EN. fold tc in E1, E2, H.
    set (a := {| ta_data := data; ta_labels := la_vals la; ta_budget := f_budget f; ta_dd := f_dd f; ta_seed := seed; ta_idcs := Some rows2; ta_feats := Some feats |}) in *.
    assert (BU : built P M tc a (set_np (fs_e s) np') t0) by (exists t1, e1, e2; auto).
    assert (SA : sampled c N F (train_rows a) (train_feats a)).
    { destruct (subset_sampled _ _ _ _ _ _ _ ED) as [[A1 [A2 A3]] [B1 [B2 B3]]]. exists rows. ands; auto. change (train_rows a) with rows2. destruct (fc_bootstrap c).
      - apply choice_repl_in in EB. exact EB.
      - apply ok_pair_inv in EB. destruct EB as [<- _]. reflexivity. }
    destruct (negb (keep_tree (f_budget f) (t_queries t0))) eqn:KT.
    + injection H as <-. left. cbn [fs_stop fs_h fs_f]. split; auto. split; auto. split; [eauto|]. apply negb_true_iff in KT. destruct (f_budget f) as [b|] eqn:FB; [|discriminate]. exists b. split; auto. right.
      exists a. eexists _, t0. split; [exact BU|]. split; [reflexivity|]. split; [exact SA|]. split; [reflexivity|].
      unfold keep_tree in KT. apply andb_false_iff in KT. destruct KT as [KT|KT]; apply Z.ltb_ge in KT; [left; lia|right; unfold buffer in KT; lia].
    + apply rbind_ok in H. destruct H as [[t h] [ET H]]. apply rbind_ok in H. destruct H as [u [EG H]]. injection H as <-. right. cbn [fs_stop fs_h fs_f]. split; auto.
      exists a, t0, t, (set_np (fs_e s) np'), gen2. eexists _, (if fc_class c then orgr else if fc_boosting c then newr else orgr), newr, la. split; [reflexivity|]. split; auto. split.
      { destruct (fc_boosting c); [eapply boost_warmed; eauto|]. apply ok_pair_inv in ET. destruct ET as [<- _]. apply warmed_refl. }
      split; [reflexivity|]. split; auto. split; [reflexivity|]. split.
      { assert (TQ : t_queries t = t_queries t0).
        { destruct (fc_boosting c); [|apply ok_pair_inv in ET; destruct ET as [<- _]; auto]. apply boost_warmed in ET. eapply warmed_queries; eauto. }
        rewrite TQ. apply negb_false_iff in KT. destruct (f_budget f) as [b|]; [|exact I]. apply Z.leb_gt in BB. unfold keep_tree in KT. apply andb_true_iff in KT. destruct KT as [K1 K2].
        apply Z.ltb_lt in K1. apply Z.ltb_lt in K2. unfold buffer in K2. cbn. lia. }
      split; [unfold label_ref; destruct (fc_class c); auto; destruct (fc_boosting c); auto|]. split; auto. split; [reflexivity|]. split; auto.
      destruct (fc_boosting c); [exact ET|]. apply ok_pair_inv in ET. destruct ET as [_ <-]. reflexivity.
Qed.

Context (f1 : forest) (h1 : heap) (boost_la : larr).
Let tc := tree_cfg c (f_classes f1) (f_minmax f1).
(** Boosting is on, and the array it overwrites. *)
Context (BL : fc_boosting c = true -> fc_class c = false -> exists r, f_new f1 = Some r /\ nth_error h1 r = Some boost_la).

Definition place (ts : list (tcfg * tree)) (L : list (list Qc)) (k : nat) (ct : tcfg * tree) : Prop :=
  exists a, fst ct = tc /\ grown P M tc a (snd ct) /\ ta_data a = data /\ sampled c N F (train_rows a) (train_feats a) /\ ta_budget a = remaining (f_budget f1) (firstn k ts) /\ affordable (ta_budget a) (t_queries (snd ct)) /\
    (fc_boosting c = false -> exists r la, label_ref c f1 = Some r /\ nth_res h1 r = Ok la /\ ta_labels a = la_vals la) /\
    (fc_boosting c = true -> fc_class c = false -> exists y y', nth_error L k = Some y /\ nth_error L (S k) = Some y' /\ ta_labels a = y /\
       boost_round c k tc (snd ct) data (train_rows a) (la_int boost_la) y y').
Definition stopped (b : option Z) : Prop := exists z, b = Some z /\ ((z <= 0)%Z \/ exists a e t, built P M tc a e t /\ ta_data a = data /\ sampled c N F (train_rows a) (train_feats a) /\ ta_budget a = Some z /\
     (t_queries t = 0 \/ (z + 1000000 <= Z.of_nat (t_queries t))%Z)).

Record course (s : fstate) (k : nat) (L : list (list Qc)) : Prop := {
  co_frame : exists ts b q o g, fs_f s = upd_forest f1 ts b q o g;
  co_budget : f_budget (fs_f s) = remaining (f_budget f1) (f_trees (fs_f s));
  co_len : if fs_stop s then stopped (f_budget (fs_f s)) else length (f_trees (fs_f s)) = k;
  co_place : forall j ct, nth_error (f_trees (fs_f s)) j = Some ct -> place (f_trees (fs_f s)) L j ct;
  co_heap : fc_boosting c = false -> fs_h s = h1;
  co_targets : fc_boosting c = true -> fc_class c = false -> length L = S (length (f_trees (fs_f s))) /\ nth_error L 0 = Some (la_vals boost_la) /\
     exists y r, nth_error L (length (f_trees (fs_f s))) = Some y /\ f_new f1 = Some r /\ nth_error (fs_h s) r = Some {| la_int := la_int boost_la; la_vals := y |}
}.

Lemma place_app ts L k ct ct' y : (fc_boosting c = true -> fc_class c = false -> length L = S (length ts)) -> k < length ts -> place ts L k ct -> place (ts ++ [ct']) (L ++ [y]) k ct.
Proof.
  intros LL K (a & A1 & A2 & A3 & A4 & A5 & AF & A6 & A7). exists a. ands; auto.
  - rewrite firstn_app. replace (k - length ts) with 0 by lia. cbn. now rewrite app_nil_r.
  - intros B1 B2. destruct (A7 B1 B2) as (z & z' & Z1 & Z2 & Z3). exists z, z'. specialize (LL B1 B2). rewrite !nth_error_app1 by lia. auto.
Qed.

Lemma course_step s k L s' : course s k L -> fit_tree M P c data F s k = Ok s' -> exists L', course s' (S k) L'.
Proof.
  intros V H. destruct (fs_stop s) eqn:ST.
  - exists L. unfold fit_tree in H. rewrite ST in H. injection H as <-. destruct V as [V1 V2 V3 V4 V5 V6]. constructor; auto. rewrite ST in *. exact V3.
  - destruct V as [(ts & b & q & o & g & FR) V2 V3 V4 V5 V6]. rewrite ST in V3.
    assert (ETC : tree_cfg c (f_classes (fs_f s)) (f_minmax (fs_f s)) = tc) by (unfold tc; rewrite FR; reflexivity).
    destruct (step_full s k s' H ST) as [(S' & HH & (oob & gen & E) & bb & FB & WH)|(S' & a & t0 & t & e0 & gen & oob & r & newr & la & E & BU & WA & DA & SA & TB & AF & LB & NL & TL & FN & BST)]; cbn zeta in *; rewrite ETC in *.
    + exists L. constructor; rewrite ?E, ?S', ?HH; cbn [f_trees f_budget f_new upd_forest]; auto.
      * rewrite FR. do 5 eexists. reflexivity.
      * exists bb. auto.
    + assert (G : grown P M tc a t) by (exists e0, t0; auto).
      assert (LRQ : label_ref c (fs_f s) = label_ref c f1) by (rewrite FR; reflexivity). assert (FNQ : f_new (fs_f s) = f_new f1) by (rewrite FR; reflexivity).
      assert (NBD : budget_left (f_budget (fs_f s)) (t_queries t) = remaining (f_budget f1) (f_trees (fs_f s) ++ [(tc, t)])).
      { rewrite V2. unfold remaining. destruct (f_budget f1); cbn [budget_left]; auto. rewrite spent_app. unfold spent at 3. cbn [map list_sum fold_right snd]. f_equal. lia. }
      destruct (fc_boosting c && negb (fc_class c)) eqn:BC.
      * apply andb_true_iff in BC. destruct BC as [BO IC]. apply negb_true_iff in IC. rewrite BO in BST. destruct (V6 BO IC) as (L1 & L2 & y & r' & Y1 & Y2 & Y3).
        rewrite FNQ, Y2 in FN. injection FN as <-. destruct (boost_targets c k tc t0 data a P M e0 r' (fs_h s) t (fs_h s') _ BU BST Y3) as (la' & Q1 & Q2 & Q3). cbn [la_int la_vals] in Q2, Q3.
        exists (L ++ [la_vals la']). constructor; rewrite ?E, ?S'; cbn [f_trees f_budget f_new upd_forest]; auto.
        -- rewrite FR. do 5 eexists. reflexivity.
        -- rewrite app_length. cbn. lia.
        -- intros j ct J. destruct (le_lt_dec (length (f_trees (fs_f s))) j) as [GE|LT].
           ++ rewrite nth_error_app2 in J by auto. destruct (j - length (f_trees (fs_f s))) as [|d] eqn:DJ; [|destruct d; discriminate J]. injection J as <-. assert (j = length (f_trees (fs_f s))) by lia. subst j.
              exists a. cbn [fst snd]. rewrite firstn_app, firstn_all, Nat.sub_diag. cbn [firstn]. rewrite app_nil_r. rewrite TB. split; auto. split; auto. split; auto. split; auto. split; [now rewrite V2|]. split; auto. split.
              ** intros Z. congruence.
              ** intros _ _. exists y, (la_vals la'). rewrite nth_error_app1 by lia. rewrite nth_error_app2 by lia. replace (S (length (f_trees (fs_f s))) - length L) with 0 by lia.
                 ands; auto. { unfold label_ref in LB. rewrite IC, BO in LB. rewrite FNQ, Y2 in LB. injection LB as <-. apply nth_res_ok in NL. rewrite Y3 in NL. injection NL as <-. exact TL. }
                 rewrite V3. exact Q3.
           ++ rewrite nth_error_app1 in J by auto. apply place_app; auto.
        -- intros Z. congruence.
        -- intros _ _. rewrite !app_length. cbn [length]. split; [lia|]. split; [rewrite nth_error_app1 by lia; auto|]. exists (la_vals la'), r'. split.
           ++ rewrite nth_error_app2 by lia. replace (length (f_trees (fs_f s)) + 1 - length L) with 0 by lia. reflexivity.
           ++ split; auto. rewrite Q1. destruct la'; cbn in *. congruence.
      * assert (NB : ~ (fc_boosting c = true /\ fc_class c = false)) by (intros [Z1 Z2]; rewrite Z1, Z2 in BC; discriminate).
        exists (L ++ [[]]). constructor; rewrite ?E, ?S'; cbn [f_trees f_budget f_new upd_forest]; auto.
        -- rewrite FR. do 5 eexists. reflexivity.
        -- rewrite app_length. cbn. lia.
        -- intros j ct J. destruct (le_lt_dec (length (f_trees (fs_f s))) j) as [GE|LT].
           ++ rewrite nth_error_app2 in J by auto. destruct (j - length (f_trees (fs_f s))) as [|d] eqn:DJ; [|destruct d; discriminate J]. injection J as <-. assert (j = length (f_trees (fs_f s))) by lia. subst j.
              exists a. cbn [fst snd]. rewrite firstn_app, firstn_all, Nat.sub_diag. cbn [firstn]. rewrite app_nil_r. rewrite TB. split; auto. split; auto. split; auto. split; auto. split; [now rewrite V2|]. split; auto. split.
              ** intros Z. exists r, la. rewrite <- LRQ, <- (V5 Z). auto.
              ** intros Z1 Z2. exfalso. auto.
           ++ rewrite nth_error_app1 in J by auto. apply place_app; auto. intros Z1 Z2. exfalso. auto.
        -- intros Z. rewrite Z in BST. rewrite BST. auto.
        -- intros Z1 Z2. exfalso. auto.
Qed.

Lemma course_loop n : forall k s L s', course s k L -> foldM (fit_tree M P c data F) s (seq k n) = Ok s' -> exists L', course s' (k + n) L'.
Proof.
  induction n as [|n IH]; intros k s L s' V H; cbn [seq foldM] in H.
  - injection H as <-. exists L. now rewrite Nat.add_0_r.
  - apply rbind_ok in H. destruct H as [s1 [E H]]. destruct (course_step _ _ _ _ V E) as [L1 V1]. destruct (IH _ _ _ _ V1 H) as [L' V']. exists L'. now rewrite <- Nat.add_succ_comm.
Qed.

Lemma course_start e : f_trees f1 = [] -> course {| fs_f := f1; fs_e := e; fs_h := h1; fs_stop := false |} 0 [la_vals boost_la].
Proof.
  intros T. constructor; cbn [fs_f fs_h fs_stop]; rewrite ?T; auto.
  - exists (f_trees f1), (f_budget f1), (f_queries f1), (f_oob f1), (f_gen f1). destruct f1; reflexivity.
  - unfold remaining. destruct (f_budget f1); auto. f_equal. cbn. lia.
  - intros [|j] ct J; discriminate J.
  - intros BO IC. destruct (BL BO IC) as (r & R1 & R2). cbn [length]. split; auto. split; auto. exists (la_vals boost_la), r. split; auto. split; auto. rewrite R2. destruct boost_la; reflexivity.
Qed.
End Run.

Lemma forest_course M P c f arg h e f1 h1 e1 la : forest_fit M P c f arg h e = Ok (f1, h1, e1) ->
  (fc_boosting c = true -> fc_class c = false -> exists r, boost_ref f arg = Some r /\ nth_error h r = Some la) ->
  exists data F g1 hh s L, started c f arg h data F g1 hh /\ f1 = fs_f s /\ h1 = fs_h s /\ course M P c data F g1 hh la s (fc_n c) L.
Proof.
  intros H BL. destruct (forest_fit_spec _ _ _ _ _ _ _ _ _ _ H) as (data & F & g1 & hh & s & SD & -> & -> & _ & L).
  assert (BL' : fc_boosting c = true -> fc_class c = false -> exists r, f_new g1 = Some r /\ nth_error hh r = Some la).
  { intros BO IC. destruct (BL BO IC) as (r & R1 & R2). exists r. rewrite (sd_new _ _ _ _ _ _ _ _ SD IC). split; auto. destruct (sd_heap _ _ _ _ _ _ _ _ SD) as (ext & EH & EX). rewrite (EX IC), app_nil_r in EH. congruence. }
  destruct (course_loop M P c data F g1 hh la (fc_n c) 0 _ _ _ (course_start M P c data F g1 hh la BL' e (proj1 (proj2 (sd_f1 _ _ _ _ _ _ _ _ SD)))) L) as [L' V].
  exists data, F, g1, hh, s, L'. auto.
Qed.

Lemma tree_arguments M P c f arg h e f1 h1 e1 data : forest_fit M P c f arg h e = Ok (f1, h1, e1) -> fit_data f arg = Some data ->
  forall k tc t, nth_error (f_trees f1) k = Some (tc, t) -> exists a r0, nth_error data 0 = Some r0 /\ grown P M tc a t /\ ta_data a = data /\
    sampled c (length data) (length r0) (train_rows a) (train_feats a) /\ ta_budget a = remaining (f_budget f) (firstn k (f_trees f1)) /\ affordable (ta_budget a) (t_queries t) /\
    (fc_boosting c = false -> fit_labels c f arg h = Some (ta_labels a)).
Proof.
  intros H D k tc t K.
  assert (X : exists la, fc_boosting c = true -> fc_class c = false -> exists r, boost_ref f arg = Some r /\ nth_error h r = Some la).
  { destruct (fc_boosting c && negb (fc_class c)) eqn:BC.
    - apply andb_true_iff in BC. destruct BC as [BO IC]. apply negb_true_iff in IC.
      destruct (forest_fit_spec _ _ _ _ _ _ _ _ _ _ H) as (data' & F & g1 & hh & s & SD & -> & _ & _ & L). destruct (sd_heap _ _ _ _ _ _ _ _ SD) as (ext & EH & EX). rewrite (EX IC), app_nil_r in EH. subst hh.
      destruct (fc_n c) eqn:NC.
      + cbn in L. injection L as <-. cbn in K. rewrite (proj1 (proj2 (sd_f1 _ _ _ _ _ _ _ _ SD))) in K. destruct k; discriminate.
      + cbn [seq foldM] in L. apply rbind_ok in L. destruct L as [s1 [E L]]. destruct (step_full M P c data' F _ 0 s1 E eq_refl) as [(S' & _ & (oob & gen & E') & _)|(S' & a & t0 & t1 & e0 & gen & oob & r & newr & la & E' & BU & WA & DA & SA & TB & AF & LB & NL & TL & FN & BST)].
        * exfalso. assert (f_trees (fs_f s) = []); [|rewrite H0 in K; destruct k; discriminate]. cbn in E'. assert (T0 : f_trees (fs_f s1) = []) by (rewrite E'; cbn; apply (sd_f1 _ _ _ _ _ _ _ _ SD)).
          clear -L S' T0. revert s1 S' T0 L. generalize 1 as i. induction n as [|n IH]; intros i s1 S' T0 L; cbn [seq foldM] in L; [injection L as <-; auto|].
          apply rbind_ok in L. destruct L as [s2 [E L]]. unfold fit_tree in E. rewrite S' in E. injection E as <-. eapply IH; eauto.
        * exists la. intros _ _. unfold label_ref in LB. rewrite BO, IC in LB. cbn [fs_f] in *. rewrite (sd_new _ _ _ _ _ _ _ _ SD IC) in *. exists r. split; auto. now apply nth_res_ok in NL.
    - exists {| la_int := false; la_vals := [] |}. intros Z1 Z2. rewrite Z1, Z2 in BC. discriminate. }
  destruct X as [la X]. destruct (forest_course _ _ _ _ _ _ _ _ _ _ la H X) as (data' & F & g1 & hh & s & L & SD & -> & -> & V).
  pose proof (sd_data _ _ _ _ _ _ _ _ SD) as D'. rewrite D in D'. injection D' as <-. destruct (sd_F _ _ _ _ _ _ _ _ SD) as [r0 [E0 <-]].
  destruct (co_place _ _ _ _ _ _ _ _ _ _ _ V _ _ K) as (a & A1 & A2 & A3 & A4 & A5 & AF & A6 & A7). cbn [fst snd] in *. exists a, r0. ands; auto.
  - now rewrite A1.
  - rewrite A5. f_equal. apply (sd_f1 _ _ _ _ _ _ _ _ SD).
  - intros Z. destruct (A6 Z) as (r & la' & B1 & B2 & B3). rewrite B3. eapply (sd_labels _ _ _ _ _ _ _ _ SD); eauto.
Qed.

Lemma boosted_targets M P c f arg h e f1 h1 e1 data r la : forest_fit M P c f arg h e = Ok (f1, h1, e1) -> fit_data f arg = Some data ->
  fc_class c = false -> fc_boosting c = true -> boost_ref f arg = Some r -> nth_error h r = Some la ->
  exists L, length L = S (length (f_trees f1)) /\ nth_error L 0 = Some (la_vals la) /\
    (exists y, nth_error L (length (f_trees f1)) = Some y /\ nth_error h1 r = Some {| la_int := la_int la; la_vals := y |}) /\
    forall k tc t, nth_error (f_trees f1) k = Some (tc, t) -> exists a y y', grown P M tc a t /\ ta_data a = data /\ nth_error L k = Some y /\ nth_error L (S k) = Some y' /\
      ta_labels a = y /\ boost_round c k tc t data (train_rows a) (la_int la) y y'.
Proof.
  intros H D IC BO BR NL. destruct (forest_course _ _ _ _ _ _ _ _ _ _ la H) as (data' & F & g1 & hh & s & L & SD & -> & -> & V); [eauto|].
  pose proof (sd_data _ _ _ _ _ _ _ _ SD) as D'. rewrite D in D'. injection D' as <-.
  destruct (co_targets _ _ _ _ _ _ _ _ _ _ _ V BO IC) as (L1 & L2 & y & r' & Y1 & Y2 & Y3). rewrite (sd_new _ _ _ _ _ _ _ _ SD IC), BR in Y2. injection Y2 as <-.
  exists L. ands; auto; [eauto|]. intros k tc t K. destruct (co_place _ _ _ _ _ _ _ _ _ _ _ V _ _ K) as (a & A1 & A2 & A3 & A4 & A5 & AF & A6 & A7). cbn [fst snd] in *.
  destruct (A7 BO IC) as (z & z' & Z1 & Z2 & Z3 & Z4). exists a, z, z'. rewrite A1. ands; auto.
Qed.

Lemma when_fitting_stops M P c f arg h e f1 h1 e1 data : forest_fit M P c f arg h e = Ok (f1, h1, e1) -> fit_data f arg = Some data ->
  length (f_trees f1) = fc_n c \/
  exists b, f_budget f1 = Some b /\
    ((b <= 0)%Z \/
     exists tc a e t r0, built P M tc a e t /\ honoured c f1 tc /\ nth_error data 0 = Some r0 /\ ta_data a = data /\ sampled c (length data) (length r0) (train_rows a) (train_feats a) /\
       ta_budget a = Some b /\ (t_queries t = 0 \/ (b + 1000000 <= Z.of_nat (t_queries t))%Z)).
Proof.
  intros H D. destruct (forest_fit_spec _ _ _ _ _ _ _ _ _ _ H) as (data' & F & g1 & hh & s & SD & -> & -> & _ & L).
  pose proof (sd_data _ _ _ _ _ _ _ _ SD) as D'. rewrite D in D'. injection D' as <-. destruct (sd_F _ _ _ _ _ _ _ _ SD) as [r0 [E0 <-]].
  assert (G : forall n k s1, (if fs_stop s1 then stopped M P c data (length r0) g1 (f_budget (fs_f s1)) else length (f_trees (fs_f s1)) = k) -> f_classes (fs_f s1) = f_classes g1 -> f_minmax (fs_f s1) = f_minmax g1 ->
    foldM (fit_tree M P c data (length r0)) s1 (seq k n) = Ok s -> (if fs_stop s then stopped M P c data (length r0) g1 (f_budget (fs_f s)) else length (f_trees (fs_f s)) = k + n) /\ f_classes (fs_f s) = f_classes g1 /\ f_minmax (fs_f s) = f_minmax g1).
  { induction n as [|n IH]; intros k s1 V C1 C2 Q; cbn [seq foldM] in Q; [injection Q as <-; rewrite Nat.add_0_r; auto|]. apply rbind_ok in Q. destruct Q as [s2 [E Q]]. rewrite <- Nat.add_succ_comm. destruct (fs_stop s1) eqn:ST.
    - unfold fit_tree in E. rewrite ST in E. injection E as <-. apply (IH (S k) s1); auto. now rewrite ST.
    - destruct (step_full M P c data (length r0) s1 k s2 E ST) as [(S' & HH & (oob & gen & E') & bb & FB & WH)|(S' & a & t0 & t & e0 & gen & oob & r & newr & la & E' & _)]; cbn zeta in *; rewrite ?C1, ?C2 in *.
      + apply (IH (S k) s2); auto; rewrite ?S', E'; cbn [upd_forest f_budget f_classes f_minmax]; auto. exists bb. auto.
      + apply (IH (S k) s2); auto; rewrite ?S', E'; cbn [upd_forest f_trees f_classes f_minmax]; auto. rewrite app_length. cbn. lia. }
  destruct (G (fc_n c) 0 {| fs_f := g1; fs_e := e; fs_h := hh; fs_stop := false |} (f_equal (@length _) (proj1 (proj2 (sd_f1 _ _ _ _ _ _ _ _ SD)))) eq_refl eq_refl L) as (K & C1 & C2). destruct (fs_stop s); [|auto].
  right. destruct K as (b & B1 & B2). exists b. split; auto. destruct B2 as [B2|(a & e2 & t & A1 & A2 & A3 & A4 & A5)]; auto. right. eexists _, a, e2, t, r0. split; [exact A1|]. split.
  - unfold honoured. rewrite C1, C2. cbn. repeat split; reflexivity.
  - ands; auto.
Qed.

(** ** Construction *)
Lemma new_accepts P c data labels classes budget h e : (forall r, labels = Some r -> r < length h) ->
  ((exists f e', forest_new P c data labels classes budget h e = Ok (f, e')) <->
   (fc_boosting c = true -> fc_class c = false /\ fc_lr c <> None) /\ (fc_oob c = true -> fc_bootstrap c = true)).
Proof.
  intros V. unfold forest_new.
  match goal with |- context [rbind (if fc_class c then ?a else ?b) _] => assert (X : exists cls, (if fc_class c then a else b) = Ok cls) end.
  { destruct (fc_class c); [|eauto]. destruct classes; [eauto|]. destruct labels as [r|]; [|eauto]. unfold nth_res. destruct (nth_error h r) eqn:N; [cbn; eauto|]. apply nth_error_None in N. specialize (V r eq_refl). lia. }
  destruct X as [cls ->]. cbn [rbind]. destruct (fc_boosting c), (fc_lr c), (fc_class c), (fc_oob c), (fc_bootstrap c); cbn [negb andb orb guard rbind];
    (split; [intros (f & e' & H); first [discriminate H|split; [intros; split; congruence|congruence]]|intros [A B]; try (destruct (A eq_refl) as [A1 A2]); try congruence; try (specialize (B eq_refl)); try congruence; eauto]).
Qed.

Lemma new_refuses P c data labels classes budget h e : (forall r, labels = Some r -> r < length h) ->
  forest_new P c data labels classes budget h e =
    (if fc_boosting c && negb (match fc_lr c with None => false | Some _ => true end) then Err GenericException
     else if fc_boosting c && fc_class c then Err NotImplementedError
     else if fc_oob c && negb (fc_bootstrap c) then Err AssertionError
     else forest_new P c data labels classes budget h e).
Proof.
  intros V. unfold forest_new.
  match goal with |- context [rbind (if fc_class c then ?a else ?b) _] => assert (X : exists cls, (if fc_class c then a else b) = Ok cls) end.
  { destruct (fc_class c); [|eauto]. destruct classes; [eauto|]. destruct labels as [r|]; [|eauto]. unfold nth_res. destruct (nth_error h r) eqn:N; [cbn; eauto|]. apply nth_error_None in N. specialize (V r eq_refl). lia. }
  destruct X as [cls ->]. cbn [rbind]. destruct (fc_boosting c), (fc_lr c), (fc_class c), (fc_oob c), (fc_bootstrap c); reflexivity.
Qed.

Lemma new_state P c data labels classes budget h e f e' : forest_new P c data labels classes budget h e = Ok (f, e') ->
  f_trees f = [] /\ f_data f = data /\ f_org f = labels /\ f_new f = labels /\ f_budget f = budget /\ f_queries f = 0 /\ f_oob f = [] /\ f_mdg f = None /\ f_minmax f = None /\ f_dd f = None /\
  f_gen f = seed_gen P (fc_seed c) /\ e' = set_seed P (fc_seed c) e.
Proof.
  unfold forest_new. intros H. apply rbind_ok in H. destruct H as [cls [_ H]]. apply rbind_ok in H. destruct H as [u1 [_ H]]. apply rbind_ok in H. destruct H as [u2 [_ H]]. apply rbind_ok in H. destruct H as [u3 [_ H]].
  apply ok_pair_inv in H. destruct H as [<- <-]. cbn. repeat split; reflexivity.
Qed.

Lemma classes_given P c data labels d budget h e f e' : fc_class c = true -> forest_new P c data labels (Some d) budget h e = Ok (f, e') -> f_classes f = d /\ f_ncl f = length d.
Proof.
  unfold forest_new. intros -> H. cbn [rbind] in H. apply rbind_ok in H. destruct H as [u1 [_ H]]. apply rbind_ok in H. destruct H as [u2 [_ H]]. apply rbind_ok in H. destruct H as [u3 [_ H]].
  apply ok_pair_inv in H. destruct H as [<- _]. cbn. auto.
Qed.

Lemma fit_one_argument M P c f h e arg : (fst arg = None <-> snd arg <> None) -> forest_fit M P c f arg h e = Err GenericException.
Proof. destruct arg as [[d|] [r|]]; cbn; intros [A B]; auto; exfalso; [assert (X : Some d = None) by (apply B; discriminate); discriminate|apply A; reflexivity]. Qed.

(** ** Ranges that are not recomputed, labels compared out of bag *)
Lemma fitted_minmax M P c f arg h e f1 h1 e1 : forest_fit M P c f arg h e = Ok (f1, h1, e1) -> fc_precomp_minmax c = false -> f_minmax f1 = f_minmax f.
Proof.
  intros H PC. destruct (forest_fit_spec _ _ _ _ _ _ _ _ _ _ H) as (data & F & g1 & hh & s & SD & E1 & _ & _ & L).
  rewrite <- (sd_nopre _ _ _ _ _ _ _ _ SD PC). rewrite E1. revert L. apply (foldM_inv (fit_tree M P c data F) (fun s => f_minmax (fs_f s) = f_minmax g1)); [reflexivity|].
  intros i s1 s2 _ IH E. destruct (fit_tree_draw _ _ _ _ _ _ _ _ E) as [_ [_ D2]]. congruence.
Qed.

Lemma fitted_org M P c f arg h e f1 h1 e1 : forest_fit M P c f arg h e = Ok (f1, h1, e1) ->
  exists data F g1 hh, started c f arg h data F g1 hh /\ f_org f1 = f_org g1 /\ (fc_boosting c = false -> h1 = hh).
Proof.
  intros H. destruct (forest_fit_spec _ _ _ _ _ _ _ _ _ _ H) as (data & F & g1 & hh & s & SD & -> & -> & _ & L). exists data, F, g1, hh. split; auto.
  revert L. apply (foldM_inv (fit_tree M P c data F) (fun s => f_org (fs_f s) = f_org g1 /\ (fc_boosting c = false -> fs_h s = hh))); [auto|].
  intros i s1 s2 _ [IH1 IH2] E. destruct (fs_stop s1) eqn:ST.
  - unfold fit_tree in E. rewrite ST in E. injection E as <-. auto.
  - destruct (step_full M P c data F s1 i s2 E ST) as [(S' & HH & (oob & gen & E') & _)|(S' & a & t0 & t & e0 & gen & oob & r & newr & la & E' & A1 & A2 & A3 & A4 & A5 & A6 & A7 & A8 & A9 & A9b & A10)]; rewrite E'; cbn [f_org upd_forest].
    + rewrite HH. auto.
    + split; auto. intros Z. rewrite Z in A10. rewrite A10. auto.
Qed.

Lemma labels_compared M P c f0 arg h0 e0 f1 h1 e1 f r la : forest_fit M P c f0 arg h0 e0 = Ok (f1, h1, e1) -> used c h1 f1 f -> fc_boosting c = false ->
  f_org f = Some r -> nth_error h1 r = Some la -> fit_labels c f0 arg h0 = Some (la_vals la).
Proof.
  intros H U BO OR N. destruct (used_like _ _ _ _ U) as [_ (L1 & L2 & L3 & L4 & L5 & L6 & L7 & L8 & L9)]. destruct (fitted_org _ _ _ _ _ _ _ _ _ _ H) as (data & F & g1 & hh & SD & EO & EH). specialize (EH BO). subst hh.
  eapply (sd_labels _ _ _ _ _ _ _ _ SD); [auto|..|unfold nth_res; rewrite N; reflexivity]. unfold label_ref. rewrite BO. destruct (fc_class c); congruence.
Qed.

Lemma boosted_compared M P c f0 arg h0 e0 f1 h1 e1 f : forest_fit M P c f0 arg h0 e0 = Ok (f1, h1, e1) -> used c h1 f1 f -> fc_class c = false -> f_org f = fit_ref f0 arg.
Proof.
  intros H U IC. destruct (used_like _ _ _ _ U) as [_ (L1 & L2 & L3 & L4 & L5 & L6 & L7 & L8 & L9)]. destruct (fitted_org _ _ _ _ _ _ _ _ _ _ H) as (data & F & g1 & hh & SD & EO & _).
  rewrite <- (sd_org _ _ _ _ _ _ _ _ SD IC). congruence.
Qed.

Lemma new_refusals P c data labels classes budget h e : (forall r, labels = Some r -> r < length h) ->
  (fc_boosting c = true -> fc_lr c = None -> forest_new P c data labels classes budget h e = Err GenericException) /\
  (fc_boosting c = true -> fc_lr c <> None -> fc_class c = true -> forest_new P c data labels classes budget h e = Err NotImplementedError) /\
  ((fc_boosting c = true -> fc_lr c <> None /\ fc_class c = false) -> fc_oob c = true -> fc_bootstrap c = false -> forest_new P c data labels classes budget h e = Err AssertionError).
Proof.
  intros V. rewrite (new_refuses P c data labels classes budget h e V). split; [|split].
  - intros -> ->. reflexivity.
  - intros -> L ->. destruct (fc_lr c); [reflexivity|congruence].
  - intros B -> ->. destruct (fc_boosting c); [|reflexivity]. destruct (B eq_refl) as [L ->]. destruct (fc_lr c); [reflexivity|congruence].
Qed.

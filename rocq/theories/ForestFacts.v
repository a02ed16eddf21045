(** Invariants of forest fitting and use. *)
From Coq Require Import List Arith Bool ZArith QArith Qcanon Lia Permutation.
From Verif Require Import Base Num Rng Histogram Utils Criteria Solvers Tree Forest Spec SolverSpec TreeSpec ForestSpec NumFacts ListFacts DrawFacts TreeFacts CountFacts TreeThms.
Import ListNotations.
Local Open Scope nat_scope.

(** ** Caches *)
Lemma batch_app c xs : forall t ys ps t1 qs t2, tree_predict_batch c t xs = Ok (ps, t1) -> tree_predict_batch c t1 ys = Ok (qs, t2) ->
  tree_predict_batch c t (xs ++ ys) = Ok (ps ++ qs, t2).
Proof.
  induction xs as [|x xs IH]; intros t ys ps t1 qs t2 H1 H2; cbn [tree_predict_batch app] in *.
  - apply ok_pair_inv in H1. destruct H1 as [<- <-]. exact H2.
  - apply rbind_ok in H1. destruct H1 as [[p t'] [E1 H1]]. apply rbind_ok in H1. destruct H1 as [[ps' t''] [E2 H1]]. cbn [fst snd] in *.
    apply ok_pair_inv in H1. destruct H1 as [<- <-]. rewrite E1. cbn [rbind fst snd]. rewrite (IH _ _ _ _ _ _ E2 H2). reflexivity.
Qed.
Lemma warmed_refl tc t : warmed tc t t.
Proof. exists [], []. reflexivity. Qed.
Lemma warmed_trans tc t0 t1 t2 : warmed tc t0 t1 -> warmed tc t1 t2 -> warmed tc t0 t2.
Proof. intros [xs [ps H1]] [ys [qs H2]]. exists (xs ++ ys), (ps ++ qs). eapply batch_app; eauto. Qed.
Lemma warmed_one tc t x p t' : tree_predict tc t x = Ok (p, t') -> warmed tc t t'.
Proof. intros H. exists [x], [p]. cbn [tree_predict_batch]. rewrite H. reflexivity. Qed.

Section Grown.
Context (P : prng) (M : math) (tc : tcfg) (a : targs) (t : tree).
Context (G : grown P M tc a t) (NE : train_rows a <> []).
Lemma grown_warmed t' : warmed tc t t' -> grown P M tc a t'.
Proof. intros C. destruct G as [e [t0 [B C0]]]. exists e, t0. split; auto. eapply warmed_trans; eauto. Qed.
Lemma grown_same t' x : warmed tc t t' -> answer (tree_predict tc t' x) = answer (tree_predict tc t x).
Proof.
  intros C. destruct G as [e [t0 [B C0]]]. pose proof (warmed_trans _ _ _ _ C0 C) as [xs [ps H1]]. destruct C0 as [ys [qs H2]].
  rewrite (fitted_memoryless P M tc a e t0 B NE xs ps t' x H1). now rewrite (fitted_memoryless P M tc a e t0 B NE ys qs t x H2).
Qed.
Lemma grown_fresh x : exists e t0, built P M tc a e t0 /\ answer (tree_predict tc t x) = answer (tree_predict tc t0 x).
Proof.
  destruct G as [e [t0 [B [ys [qs H2]]]]]. exists e, t0. split; auto. apply (fitted_memoryless P M tc a e t0 B NE ys qs t x H2).
Qed.
Lemma answer_ok {A B} (r : res (A * B)) x : answer r = Ok x -> exists b, r = Ok (x, b).
Proof. destruct r as [[y b]|]; cbn; intros H; [injection H as ->; eauto|discriminate]. Qed.
Lemma grown_reg x p : tc_class tc = false -> answer (tree_predict tc t x) = Ok p ->
  exists v, p = PReg v /\ forall lo hi, (forall i, In i (train_rows a) -> (lo <= nth i (ta_labels a) 0)%Qc /\ (nth i (ta_labels a) 0 <= hi)%Qc) -> (lo <= v)%Qc /\ (v <= hi)%Qc.
Proof.
  intros IC H. destruct (grown_fresh x) as [e [t0 [B E]]]. rewrite E in H. apply answer_ok in H. destruct H as [t' H].
  assert (S : exists v, p = PReg v).
  { unfold tree_predict in H. rewrite IC in H. apply rbind_ok in H. destruct H as [id [_ H]]. apply rbind_ok in H. destruct H as [nd [_ H]].
    destruct (nd_pval nd). { apply ok_pair_inv in H. destruct H as [<- _]. eauto. }
    apply rbind_ok in H. destruct H as [l [_ H]]. apply rbind_ok in H. destruct H as [u [_ H]]. apply ok_pair_inv in H. destruct H as [<- _]. eauto. }
  destruct S as [v ->]. exists v. split; auto. destruct (fitted_reg P M tc a e t0 B NE x v t' IC H) as [leaf [_ [_ K]]]. exact K.
Qed.
Lemma grown_class x p : tc_class tc = true -> good_classes (tc_classes tc) -> answer (tree_predict tc t x) = Ok p ->
  exists label probs, p = PClass label probs /\ length probs = length (tc_classes tc) /\ (forall q, In q probs -> (0 <= q)%Qc /\ (q <= 1)%Qc) /\ qsum probs = 1%Qc.
Proof.
  intros IC GC H. destruct (grown_fresh x) as [e [t0 [B E]]]. rewrite E in H. apply answer_ok in H. destruct H as [t' H].
  assert (S : exists l q, p = PClass l q).
  { unfold tree_predict in H. rewrite IC in H. apply rbind_ok in H. destruct H as [id [_ H]]. apply rbind_ok in H. destruct H as [nd [_ H]].
    destruct (nd_probs nd). { apply rbind_ok in H. destruct H as [l' [_ H]]. apply ok_pair_inv in H. destruct H as [<- _]. eauto. }
    apply rbind_ok in H. destruct H as [l [_ H]]. apply rbind_ok in H. destruct H as [u [_ H]]. apply rbind_ok in H. destruct H as [w [_ H]]. apply ok_pair_inv in H. destruct H as [<- _]. eauto. }
  destruct S as [l [q ->]]. exists l, q. split; auto. destruct (fitted_class P M tc a e t0 B NE x l q t' IC GC H) as [leaf [_ [K1 [_ [_ [_ [K2 K3]]]]]]]. auto.
Qed.
End Grown.

(** ** Predictions of all trees *)
Lemma trees_predict_spec x : forall ts ps ts', trees_predict ts x = Ok (ps, ts') ->
  Forall2 (fun ct p => answer (tree_predict (fst ct) (snd ct) x) = Ok p) ts ps /\
  Forall2 (fun ct ct' => fst ct' = fst ct /\ warmed (fst ct) (snd ct) (snd ct')) ts ts'.
Proof.
  induction ts as [|[tc t] ts IH]; intros ps ts' H; cbn [trees_predict] in H.
  - apply ok_pair_inv in H. destruct H as [<- <-]. auto.
  - apply rbind_ok in H. destruct H as [[p t'] [E1 H]]. apply rbind_ok in H. destruct H as [[qs us] [E2 H]]. cbn [fst snd] in *.
    apply ok_pair_inv in H. destruct H as [<- <-]. destruct (IH _ _ E2) as [J1 J2]. split; constructor; auto; cbn [fst snd].
    + now rewrite E1.
    + split; auto. eapply warmed_one; eauto.
Qed.
Lemma trees_predict_total x : forall ts ps, Forall2 (fun ct p => answer (tree_predict (fst ct) (snd ct) x) = Ok p) ts ps ->
  exists ts', trees_predict ts x = Ok (ps, ts').
Proof.
  induction 1 as [|[tc t] p ts ps A F [ts' IH]]; cbn [trees_predict]; [eexists; reflexivity|]. cbn [fst snd] in A. apply answer_ok in A. destruct A as [t' A].
  rewrite A. cbn [rbind]. rewrite IH. cbn [rbind fst snd]. eexists. reflexivity.
Qed.

(** ** One iteration of fit *)
Lemma nodup_prefix {A} (l r : list A) : NoDup (l ++ r) -> NoDup l.
Proof. induction l as [|x l IH]; cbn; intros H; constructor; inversion H; subst; auto. intros I. apply H2. apply in_or_app. now left. Qed.
Lemma choice_norepl_in pool k t l t' : choice_norepl pool k t = Ok (l, t') -> length l = k /\ (forall i, In i l -> In i pool) /\ (NoDup pool -> NoDup l).
Proof.
  unfold choice_norepl. destruct (length pool <? k) eqn:E; [discriminate|]. apply Nat.ltb_ge in E. intros H. injection H as H.
  destruct (pick_k_spec k pool t E) as [rest [PM L]]. rewrite H in PM, L. cbn in PM, L. split; auto. split.
  - intros i I. eapply Permutation_in; [symmetry; exact PM|]. apply in_or_app. now left.
  - intros ND. eapply Permutation_NoDup in ND; [|exact PM]. eapply nodup_prefix; eauto.
Qed.
Lemma choice_repl_in pool k t l t' : choice_repl pool k t = Ok (l, t') -> length l = k /\ (forall i, In i l -> In i pool).
Proof.
  unfold choice_repl. destruct ((length pool =? 0) && negb (k =? 0)) eqn:E; [discriminate|]. pose proof (draws_mod_spec (length pool) k t) as [L H].
  destruct (draws_mod (length pool) k t) as [l0 t0]. cbn [fst snd] in *. intros Q. apply ok_pair_inv in Q. destruct Q as [<- <-]. rewrite map_length. split; auto.
  intros i I. apply in_map_iff in I. destruct I as [j [<- I]]. destruct (length pool =? 0) eqn:Z.
  - cbn in E. apply negb_false_iff, Nat.eqb_eq in E. subst k. destruct l0; [destruct I|discriminate L].
  - apply Nat.eqb_neq in Z. apply nth_In. apply H; [lia|auto].
Qed.

Section Step.
Context (M : math) (P : prng) (c : fcfg) (data : list (list Qc)) (F : nat).
Let N := length data.

(** The arguments of one tree. *)
Record args_ok (dd : option ddict) (a : targs) : Prop := {
  ao_data : ta_data a = data;
  ao_dd : ta_dd a = dd;
  ao_rows : forall i, In i (train_rows a) -> i < N;
  ao_feats : forall f, In f (train_feats a) -> f < F;
  ao_some : some_rows c N -> train_rows a <> [];
  ao_all : all_rows c -> train_rows a = arange N /\ train_feats a = arange F;
  ao_boot : fc_bootstrap c = true -> length (train_rows a) = N;
  ao_idcs : ta_idcs a = Some (train_rows a)
}.

Lemma subset_draw_spec gen rows feats gen' : subset_draw c N F gen = Ok (rows, feats, gen') ->
  (forall i, In i rows -> i < N) /\ (forall f, In f feats -> f < F) /\ (some_rows c N -> rows <> []) /\
  ((1 <= fc_alpha_N c)%Qc -> (1 <= fc_alpha_F c)%Qc -> rows = arange N /\ feats = arange F).
Proof.
  unfold subset_draw, some_rows. destruct (qlt (fc_alpha_N c) 1%Qc || qlt (fc_alpha_F c) 1%Qc) eqn:A.
  - intros H. apply rbind_ok in H. destruct H as [[l1 g1] [E1 H]]. apply rbind_ok in H. destruct H as [[l2 g2] [E2 H]]. cbn [fst snd] in *.
    injection H as <- <- <-. unfold alpha_choice in E1, E2. destruct (_ <? 0)%Z eqn:Z1 in E1; [discriminate|]. destruct (_ <? 0)%Z eqn:Z2 in E2; [discriminate|].
    apply choice_norepl_in in E1. apply choice_norepl_in in E2. destruct E1 as [L1 [I1 _]]. destruct E2 as [L2 [I2 _]]. split; [|split; [|split]].
    + intros i I. now apply arange_in, I1.
    + intros i I. now apply arange_in, I2.
    + intros [_ S]. specialize (S eq_refl). intros ->. cbn in L1. lia.
    + intros Q1 Q2. apply orb_true_iff in A. destruct A as [A|A]; apply qlt_spec in A; exfalso; [exact (Qclt_not_le _ _ A Q1)|exact (Qclt_not_le _ _ A Q2)].
  - intros H. injection H as <- <- <-. split; [intros i; apply arange_in|]. split; [intros i; apply arange_in|]. split.
    + intros [S _] Z. apply (f_equal (@length nat)) in Z. unfold arange in Z. rewrite seq_length in Z. cbn in Z. lia.
    + auto.
Qed.

Definition budget_left (b : option Z) (q : nat) : option Z := match b with None => None | Some b => Some (b - Z.of_nat q)%Z end.
Definition label_ref (f : forest) : option nat := if fc_class c then f_org f else if fc_boosting c then f_new f else f_org f.

Lemma fit_tree_cases s i s' : fit_tree M P c data F s i = Ok s' -> fs_stop s = false ->
  let f := fs_f s in let f' := fs_f s' in let tc := tree_cfg c (f_classes f) (f_minmax f) in
  (fs_stop s' = true /\ fs_h s' = fs_h s /\ f_budget f <> None /\ exists gen oob, f' = upd_forest f (f_trees f) (f_budget f) (f_queries f) oob gen /\
     (oob = f_oob f \/ fc_bootstrap c && fc_oob c = true /\ exists l, oob = f_oob f ++ [l])) \/
  (fs_stop s' = false /\ exists a t0 t e0 gen r newr la,
     f' = upd_forest f (f_trees f ++ [(tc, t)]) (budget_left (f_budget f) (t_queries t)) (f_queries f + t_queries t)
            (if fc_bootstrap c && fc_oob c then f_oob f ++ [get_out_of_bag (train_rows a) N] else f_oob f) gen /\
     built P M tc a e0 t0 /\ args_ok (f_dd f) a /\ ta_budget a = f_budget f /\ label_ref f = Some r /\ nth_res (fs_h s) r = Ok la /\ ta_labels a = la_vals la /\
     f_new f = Some newr /\ keep_tree (f_budget f) (t_queries t0) = true /\
     match f_budget f with None => True | Some b => (0 < b)%Z end /\
     (if fc_boosting c then boost c i tc t0 data (train_rows a) newr (fs_h s) = Ok (t, fs_h s') else t = t0 /\ fs_h s' = fs_h s)).
Proof.
  intros H S f f' tc. unfold fit_tree in H. rewrite S in H. fold f in H. change (length data) with N in H. apply rbind_ok in H. destruct H as [[[rows feats] gen1] [ED H]].
  destruct (match f_budget f with Some b => (b <=? 0)%Z | None => false end) eqn:BB.
  - injection H as <-. left. cbn [fs_stop fs_h fs_f] in *. split; auto. split; auto. split. { intros Z. rewrite Z in BB. discriminate. } exists gen1, (f_oob f). auto.
  - apply rbind_ok in H. destruct H as [orgr [EO H]]. apply rbind_ok in H. destruct H as [newr [EN H]]. apply rbind_ok in H. destruct H as [[rows2 gen2] [EB H]].
    destruct (draw (e_np (fs_e s))) as [seed np'] eqn:DR. apply rbind_ok in H. destruct H as [la [EL H]].
    apply rbind_ok in H. destruct H as [[t1 e1] [E1 H]]. apply rbind_ok in H. destruct H as [[t0 e2] [E2 H]]. cbn [fst snd] in E1, E2.
    apply opt_res_ok in EO. apply opt_res_ok in EN.
    destruct (negb (keep_tree (f_budget f) (t_queries t0))) eqn:KT.
    + injection H as <-. left. cbn [fs_stop fs_h fs_f] in *. split; auto. split; auto. split. { intros Z. rewrite Z in KT. discriminate. }
      eexists gen2, _. split; [reflexivity|]. destruct (fc_bootstrap c && fc_oob c); [right; split; auto; eexists; reflexivity|now left].
    + apply negb_false_iff in KT. apply rbind_ok in H. destruct H as [[t h] [ET H]]. apply rbind_ok in H. destruct H as [u [EG H]].
      apply guard_ok in EG. injection H as <-. right. cbn [fs_stop fs_h fs_f] in *. split; auto. clear u.
      set (a := {| ta_data := data; ta_labels := la_vals la; ta_budget := f_budget f; ta_dd := f_dd f; ta_seed := seed; ta_idcs := Some rows2; ta_feats := Some feats |}) in *.
      destruct (subset_draw_spec _ _ _ _ ED) as [D1 [D2 [D3 D4]]].
      assert (R : (forall i, In i rows2 -> In i rows) /\ (fc_bootstrap c = true -> length rows2 = N) /\ (fc_bootstrap c = false -> rows2 = rows)).
      { destruct (fc_bootstrap c).
        - apply choice_repl_in in EB. destruct EB as [B1 B2]. split; auto. split; auto. discriminate.
        - apply ok_pair_inv in EB. destruct EB as [<- _]. split; auto. split; auto. discriminate. }
      destruct R as [R1 [R2 R3]].
      exists a, t0, t, (set_np (fs_e s) np'), gen2, (if fc_class c then orgr else if fc_boosting c then newr else orgr), newr, la. split; [|split; [|split; [|split; [|split; [|split; [|split; [|split; [|split; [|split]]]]]]]]]; auto.
      * exists t1, e1, e2. auto.
      * constructor; auto.
        -- intros SR. cbn. destruct (fc_bootstrap c) eqn:BS.
           ++ specialize (R2 eq_refl). intros ->. cbn in R2. destruct SR. lia.
           ++ rewrite (R3 eq_refl). auto.
        -- intros [A1 [A2 A3]]. cbn. rewrite (R3 A1). now apply D4.
      * unfold label_ref. destruct (fc_class c); auto. destruct (fc_boosting c); auto.
      * destruct (f_budget f); auto. apply Z.leb_gt in BB. exact BB.
      * destruct (fc_boosting c); [exact ET|]. apply ok_pair_inv in ET. destruct ET as [<- <-]. auto.
Qed.

Lemma boost_warmed i tc t0 rows newr h t h' : boost c i tc t0 data rows newr h = Ok (t, h') -> warmed tc t0 t.
Proof.
  unfold boost. intros H. apply rbind_ok in H. destruct H as [xs [_ H]]. apply rbind_ok in H. destruct H as [[ps t'] [E H]]. cbn [fst snd] in *.
  repeat (apply rbind_ok in H; let x := fresh in destruct H as [x [_ H]]). apply ok_pair_inv in H. destruct H as [<- _]. exists xs, ps. exact E.
Qed.
Lemma predict_queries tc t x p t' : tree_predict tc t x = Ok (p, t') -> t_queries t' = t_queries t.
Proof.
  unfold tree_predict. intros H. apply rbind_ok in H. destruct H as [id [_ H]]. apply rbind_ok in H. destruct H as [nd [_ H]]. destruct (tc_class tc).
  - destruct (nd_probs nd); repeat (apply rbind_ok in H; let x := fresh in destruct H as [x [_ H]]); apply ok_pair_inv in H; destruct H as [_ <-]; reflexivity.
  - destruct (nd_pval nd); repeat (apply rbind_ok in H; let x := fresh in destruct H as [x [_ H]]); apply ok_pair_inv in H; destruct H as [_ <-]; reflexivity.
Qed.
Lemma warmed_queries tc t0 t : warmed tc t0 t -> t_queries t = t_queries t0.
Proof.
  intros [xs [ps H]]. revert t0 ps H. induction xs as [|x xs IH]; intros t0 ps H; cbn [tree_predict_batch] in H.
  - apply ok_pair_inv in H. destruct H as [_ <-]. auto.
  - apply rbind_ok in H. destruct H as [[p t1] [E1 H]]. apply rbind_ok in H. destruct H as [[qs t2] [E2 H]]. cbn [fst snd] in *. apply ok_pair_inv in H. destruct H as [_ <-].
    rewrite (IH _ _ E2). eapply predict_queries; eauto.
Qed.
End Step.

(** ** The loop over estimators *)

Section Loop.
Context (M : math) (P : prng) (c : fcfg) (data : list (list Qc)) (F : nat) (f1 : forest) (h1 : heap).
Let N := length data.

(** The k-th tree of the fitted forest was built from these arguments. *)
Record info (ct : tcfg * tree) (a : targs) : Prop := {
  io_cfg : fst ct = tree_cfg c (f_classes f1) (f_minmax f1);
  io_grown : grown P M (fst ct) a (snd ct);
  io_args : args_ok c data F (f_dd f1) a;
  io_labels : fc_boosting c = false -> exists r la, label_ref c f1 = Some r /\ nth_res h1 r = Ok la /\ ta_labels a = la_vals la;
  io_budget : f_budget f1 = None -> ta_budget a = None
}.

Record finv (s : fstate) (k : nat) (infos : list targs) : Prop := {
  fi_frame : exists ts b q o g, fs_f s = upd_forest f1 ts b q o g;
  fi_trees : Forall2 info (f_trees (fs_f s)) infos;
  fi_count : length infos <= k /\ (fs_stop s = false -> length infos = k) /\ (f_budget f1 = None -> fs_stop s = false);
  fi_queries : f_queries (fs_f s) = f_queries f1 + spent (f_trees (fs_f s));
  fi_budget : match f_budget f1 with
              | None => f_budget (fs_f s) = None
              | Some b => f_budget (fs_f s) = Some (b - Z.of_nat (spent (f_trees (fs_f s))))%Z /\
                  (forall ct, In ct (f_trees (fs_f s)) -> 1 <= t_queries (snd ct)) /\
                  (infos <> [] -> (Z.of_nat (spent (f_trees (fs_f s))) < b + buffer)%Z)
              end;
  fi_oob : if fc_bootstrap c && fc_oob c
           then exists extra, f_oob (fs_f s) = f_oob f1 ++ map (fun a => get_out_of_bag (train_rows a) N) infos ++ extra /\ (fs_stop s = false -> extra = [])
           else f_oob (fs_f s) = f_oob f1;
  fi_heap : (fc_boosting c = false -> fs_h s = h1) /\ length (fs_h s) = length h1 /\
            (forall r, f_new f1 <> Some r -> nth_error (fs_h s) r = nth_error h1 r)
}.

Lemma spent_app l l' : spent (l ++ l') = spent l + spent l'.
Proof. unfold spent. rewrite map_app, list_sum_app. reflexivity. Qed.

Lemma store_frame h r idcs vals h' : store h r idcs vals = Ok h' ->
  length h' = length h /\ (forall r', r' <> r -> nth_error h' r' = nth_error h r').
Proof.
  unfold store. intros H. apply rbind_ok in H. destruct H as [a [E H]]. apply rbind_ok in H. destruct H as [u [_ H]]. injection H as <-.
  rewrite set_nth_length. split; auto. intros r' NQ. rewrite set_nth_nth. destruct (Nat.eq_dec r r') as [->|Q]; [contradiction|]. apply Nat.eqb_neq in Q. rewrite ?(Nat.eqb_sym r'), ?Q; auto.
Qed.
Lemma boost_frame i tc t0 rows newr h t h' : boost c i tc t0 data rows newr h = Ok (t, h') ->
  length h' = length h /\ (forall r, r <> newr -> nth_error h' r = nth_error h r).
Proof.
  unfold boost. intros H. repeat (apply rbind_ok in H; let x := fresh in let E := fresh "E" in destruct H as [x [E H]]).
  apply ok_pair_inv in H. destruct H as [_ <-]. eapply store_frame; eauto.
Qed.

Lemma finv_step s k infos s' : finv s k infos -> fit_tree M P c data F s k = Ok s' -> exists infos', finv s' (S k) infos'.
Proof.
  intros V H. destruct (fs_stop s) eqn:ST.
  - exists infos. unfold fit_tree in H. rewrite ST in H. injection H as <-. destruct V as [V1 V2 [V3 [V4 V5]] V6 V7 V8 V9]. constructor; auto. split; [lia|]. split; [intros; congruence|auto].
  - destruct V as [[ts [b [q [o [g FR]]]]] V2 [V3 [V4 V5]] V6 V7 V8 [V9 [V10 V11]]].
    destruct (fit_tree_cases M P c data F s k s' H ST) as [(S' & HH & BN & gen & oob & E & O)|(S' & a & t0 & t & e0 & gen & r & newr & la & E & BU & AO & TB & LR & NL & TL & FN & KT & BP & BST)].
    + exists infos. assert (GB : f_budget f1 <> None) by (intros Z; rewrite Z in V7; congruence).
      constructor; rewrite ?E; cbn [f_trees f_budget f_queries f_oob upd_forest]; auto.
      * rewrite FR. do 5 eexists. reflexivity.
      * split; [lia|]. split; [congruence|contradiction].
      * destruct (fc_bootstrap c && fc_oob c) eqn:BO.
        -- destruct V8 as [extra [V8 V8']]. rewrite (V8' ST) in V8. destruct O as [->|[_ [l ->]]].
           ++ exists []. rewrite V8. split; auto.
           ++ exists [l]. rewrite V8, <- app_assoc. rewrite app_nil_r. split; auto. congruence.
        -- destruct O as [->|[O _]]; [auto|congruence].
      * rewrite HH. auto.
    + exists (infos ++ [a]). set (tc := tree_cfg c (f_classes (fs_f s)) (f_minmax (fs_f s))) in *.
      assert (ETC : tc = tree_cfg c (f_classes f1) (f_minmax f1)) by (unfold tc; rewrite FR; reflexivity).
      assert (W : warmed tc t0 t) by (destruct (fc_boosting c); [eapply boost_warmed; eauto|destruct BST as [-> _]; apply warmed_refl]).
      pose proof (warmed_queries _ _ _ W) as WQ.
      assert (LRQ : label_ref c (fs_f s) = label_ref c f1) by (rewrite FR; reflexivity).
      constructor; rewrite ?E; cbn [f_trees f_budget f_queries f_oob upd_forest].
      * rewrite FR. do 5 eexists. reflexivity.
      * apply Forall2_app; auto. constructor; auto. constructor; cbn [fst snd]; auto.
        -- exists e0, t0. auto.
        -- rewrite FR in AO. exact AO.
        -- intros BF. exists r, la. rewrite LRQ in LR. rewrite (V9 BF) in NL. auto.
        -- intros Z. rewrite Z in V7. congruence.
      * rewrite app_length. cbn [length]. specialize (V4 ST). split; [lia|]. split; [lia|auto].
      * rewrite spent_app, V6. unfold spent. cbn. lia.
      * destruct (f_budget f1) as [b1|] eqn:BQ.
        -- destruct V7 as [V7 [V7a V7b]]. rewrite V7 in *. cbn [budget_left keep_tree] in *. apply andb_true_iff in KT. destruct KT as [K1 K2]. apply Z.ltb_lt in K1. apply Z.ltb_lt in K2.
           rewrite spent_app. assert (S1 : spent [(tc, t)] = t_queries t) by (unfold spent; cbn; lia). rewrite S1. split; [f_equal; lia|]. split.
           ++ intros ct I. apply in_app_or in I. destruct I as [I|[<-|[]]]; auto. cbn [snd]. lia.
           ++ intros _. lia.
        -- rewrite V7. reflexivity.
      * destruct (fc_bootstrap c && fc_oob c) eqn:BO; auto. destruct V8 as [extra [V8 V8']]. rewrite (V8' ST) in V8. exists []. rewrite V8, map_app, !app_nil_r, <- app_assoc. auto.
      * assert (NQ : newr = newr) by auto. destruct (fc_boosting c) eqn:BO.
        -- destruct (boost_frame _ _ _ _ _ _ _ _ BST) as [B1 B2]. split; [discriminate|]. split; [congruence|]. intros r' NR. rewrite B2; auto.
           intros ->. apply NR. rewrite <- FN, FR. reflexivity.
        -- destruct BST as [-> ->]. auto.
Qed.

Lemma finv_loop n : forall k s infos s', finv s k infos -> foldM (fit_tree M P c data F) s (seq k n) = Ok s' -> exists infos', finv s' (k + n) infos'.
Proof.
  induction n as [|n IH]; intros k s infos s' V H; cbn [seq foldM] in H.
  - injection H as <-. exists infos. now rewrite Nat.add_0_r.
  - apply rbind_ok in H. destruct H as [s1 [E H]]. destruct (finv_step _ _ _ _ V E) as [infos1 V1]. destruct (IH _ _ _ _ V1 H) as [infos' V']. exists infos'. now rewrite <- Nat.add_succ_comm.
Qed.

Lemma finv_start e : f_trees f1 = [] -> finv {| fs_f := f1; fs_e := e; fs_h := h1; fs_stop := false |} 0 [].
Proof.
  intros T. constructor; cbn [fs_f fs_h fs_stop].
  - exists (f_trees f1), (f_budget f1), (f_queries f1), (f_oob f1), (f_gen f1). destruct f1; reflexivity.
  - rewrite T. constructor.
  - auto.
  - rewrite T. cbn. lia.
  - rewrite T. destruct (f_budget f1); auto. split; [f_equal; cbn; lia|]. split; [intros ct []|congruence].
  - destruct (fc_bootstrap c && fc_oob c); auto. exists []. rewrite !app_nil_r. auto.
  - auto.
Qed.
End Loop.

(** ** fit *)
Lemma astype_spec h r h' r' : astype_int h r = Ok (h', r') -> exists a, nth_error h r = Some a /\ r' = length h /\ h' = h ++ [{| la_int := true; la_vals := map trunc (la_vals a) |}].
Proof. unfold astype_int. intros H. apply rbind_ok in H. destruct H as [a [E H]]. apply nth_res_ok in E. apply ok_pair_inv in H. destruct H as [<- <-]. eauto. Qed.

Lemma astype_two h org new o' n' h1 :
  (do o <- opt_res org AttributeError; do n <- opt_res new AttributeError; do a <- astype_int h o; do b <- astype_int (fst a) n; Ok (Some (snd a), Some (snd b), fst b)) = Ok (o', n', h1) ->
  exists r a1 x, org = Some r /\ nth_error h r = Some a1 /\ o' = Some (length h) /\ n' = Some (S (length h)) /\ h1 = h ++ [{| la_int := true; la_vals := map trunc (la_vals a1) |}; x].
Proof.
  intros H. apply rbind_ok in H. destruct H as [r [E1 H]]. apply opt_res_ok in E1. apply rbind_ok in H. destruct H as [n [_ H]].
  apply rbind_ok in H. destruct H as [[ha ra] [E2 H]]. apply rbind_ok in H. destruct H as [[hb rb] [E3 H]]. cbn [fst snd] in *. injection H as <- <- <-.
  apply astype_spec in E2. destruct E2 as [a1 [E2 [-> ->]]]. apply astype_spec in E3. destruct E3 as [a2 [E3 [-> ->]]]. exists r, a1. eexists.
  split; [auto|]. split; [auto|]. split; [auto|]. split; [rewrite app_length; cbn; f_equal; lia|]. rewrite <- app_assoc. reflexivity.
Qed.

Record started (c : fcfg) (f : forest) (arg : option (list (list Qc)) * option nat) (h : heap) (data : list (list Qc)) (F : nat) (f1 : forest) (h1 : heap) : Prop := {
  sd_data : fit_data f arg = Some data;
  sd_F : exists r0, nth_error data 0 = Some r0 /\ length r0 = F;
  sd_f1 : f_data f1 = Some data /\ f_trees f1 = [] /\ f_classes f1 = f_classes f /\ f_ncl f1 = f_ncl f /\ f_budget f1 = f_budget f /\
          f_queries f1 = f_queries f /\ f_mdg f1 = f_mdg f /\ f_gen f1 = f_gen f;
  sd_oob : fc_oob c = true -> f_oob f1 = [];
  sd_heap : exists ext, h1 = h ++ ext /\ (fc_class c = false -> ext = []);
  sd_new : fc_class c = false -> f_new f1 = boost_ref f arg;
  sd_newc : fc_class c = true -> forall r, f_new f1 = Some r -> length h <= r;
  sd_org : fc_class c = false -> f_org f1 = fit_ref f arg;
  sd_mm : f_minmax f1 = f_minmax f \/ exists m, f_minmax f1 = Some m /\ col_minmax data F = Ok m;
  sd_pre : fc_precomp_minmax c = true -> exists m, f_minmax f1 = Some m /\ col_minmax data F = Ok m;
  sd_dd : f_dd f1 = f_dd f \/ exists d, f_dd f1 = Some d /\ data_to_discrete data 10 = Ok d;
  sd_labels : fc_class c = true \/ fc_boosting c = false -> forall r la, label_ref c f1 = Some r -> nth_res h1 r = Ok la -> fit_labels c f arg h = Some (la_vals la);
  sd_blabels : fc_class c = false -> fc_boosting c = true -> label_ref c f1 = boost_ref f arg;
  sd_nopre : fc_precomp_minmax c = false -> f_minmax f1 = f_minmax f
}.

Lemma forest_fit_spec M P c f arg h e f' h' e' : forest_fit M P c f arg h e = Ok (f', h', e') ->
  exists data F f1 h1 s, started c f arg h data F f1 h1 /\ f' = fs_f s /\ h' = fs_h s /\ e' = fs_e s /\
    foldM (fit_tree M P c data F) {| fs_f := f1; fs_e := e; fs_h := h1; fs_stop := false |} (seq 0 (fc_n c)) = Ok s.
Proof.
  unfold forest_fit. intros H. apply rbind_ok in H. destruct H as [[[od org] new] [E1 H]].
  assert (A : od = fit_data f arg /\ org = fit_ref f arg /\ new = boost_ref f arg).
  { unfold fit_data, fit_ref, boost_ref. destruct arg as [[d|] [r|]]; cbn [fst snd]; try discriminate E1; injection E1 as <- <- <-; auto. }
  destruct A as [-> [-> ->]]. clear E1. apply rbind_ok in H. destruct H as [data [ED H]]. apply opt_res_ok in ED. apply rbind_ok in H. destruct H as [r0 [ER H]]. apply nth_res_ok in ER.
  apply rbind_ok in H. destruct H as [[[org new] h1] [EH H]]. apply rbind_ok in H. destruct H as [dd [EDD H]]. apply rbind_ok in H. destruct H as [mm [EMM H]].
  apply rbind_ok in H. destruct H as [s [ES H]]. injection H as <- <- <-.
  exists data, (length r0). eexists _, h1, s. split; [|split; [reflexivity|split; [reflexivity|split; [reflexivity|exact ES]]]]. clear ES.
  constructor; auto.
  - eauto.
  - cbn. repeat split; reflexivity.
  - intros O. cbn. now rewrite O.
  - destruct (fc_class c) eqn:IC.
    + apply astype_two in EH. destruct EH as (r & a1 & x & _ & _ & _ & _ & ->). eexists. split; [reflexivity|discriminate].
    + injection EH as _ _ <-. exists []. rewrite app_nil_r. auto.
  - intros IC. rewrite IC in EH. injection EH as _ <- _. reflexivity.
  - intros IC r. rewrite IC in EH. cbn [f_new]. intros Q. apply astype_two in EH. destruct EH as (r' & a1 & x & _ & _ & _ & -> & _). injection Q as <-. lia.
  - intros IC. rewrite IC in EH. injection EH as <- _ _. reflexivity.
  - cbn [f_minmax]. destruct (fc_precomp_minmax c).
    + apply rbind_ok in EMM. destruct EMM as [m [EM Q]]. injection Q as <-. right. eauto.
    + injection EMM as <-. auto.
  - cbn [f_minmax]. intros PC. rewrite PC in EMM. apply rbind_ok in EMM. destruct EMM as [m [EM Q]]. injection Q as <-. eauto.
  - cbn [f_dd]. destruct (match fc_bin c with LINEAR | IDENTITY => false | _ => fc_make_discrete c end).
    + apply rbind_ok in EDD. destruct EDD as [d [EM Q]]. injection Q as <-. right. eauto.
    + injection EDD as <-. auto.
  - intros OR r la. unfold label_ref, fit_labels. cbn [f_org f_new]. destruct (fc_class c) eqn:IC.
    + apply astype_two in EH. destruct EH as (r' & a1 & x & -> & E2 & -> & _ & ->). intros Q NL. injection Q as <-. apply nth_res_ok in NL.
      rewrite E2. rewrite nth_error_app2 in NL by lia. rewrite Nat.sub_diag in NL. cbn in NL. injection NL as <-. reflexivity.
    + destruct OR as [OR|OR]; [discriminate|]. rewrite OR. injection EH as <- <- <-. intros -> NL. apply nth_res_ok in NL. now rewrite NL.
  - intros IC BO. unfold label_ref. rewrite IC, BO in *. cbn [f_new]. injection EH as _ <- _. reflexivity.
  - intros PC. cbn [f_minmax]. rewrite PC in EMM. injection EMM as <-. reflexivity.
Qed.

(** What is known of a fitted forest. *)
Lemma fitted_forest M P c f arg h e f' h' e' : forest_fit M P c f arg h e = Ok (f', h', e') ->
  exists data F f1 h1 s infos, started c f arg h data F f1 h1 /\ f' = fs_f s /\ h' = fs_h s /\ finv M P c data F f1 h1 s (fc_n c) infos.
Proof.
  intros H. destruct (forest_fit_spec _ _ _ _ _ _ _ _ _ _ H) as (data & F & f1 & h1 & s & SD & -> & -> & _ & L).
  pose proof (finv_start M P c data F f1 h1 e (proj1 (proj2 (sd_f1 _ _ _ _ _ _ _ _ SD)))) as V. destruct (finv_loop M P c data F f1 h1 (fc_n c) 0 _ _ _ V L) as [infos V'].
  exists data, F, f1, h1, s, infos. auto.
Qed.

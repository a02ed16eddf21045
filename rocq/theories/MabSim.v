(** Uninitialised memory does not influence the loop once every arm has been sampled. *)
From Coq Require Import List Arith Bool ZArith QArith Qcanon Lia Permutation.
From Verif Require Import Base Num Rng Histogram Utils Criteria Solvers ListFacts SampleFacts ExactFacts.
Import ListNotations.
Local Open Scope nat_scope.

(** Both runs fail alike, or both succeed with related results. *)
Definition rres {A B} (R : A -> B -> Prop) (x : res A) (y : res B) : Prop :=
  match x, y with Ok a, Ok b => R a b | Err a, Err b => a = b | _, _ => False end.
Lemma rres_bind {A B C D} (R : A -> B -> Prop) (Q : C -> D -> Prop) x y g h :
  rres R x y -> (forall a b, x = Ok a -> y = Ok b -> R a b -> rres Q (g a) (h b)) -> rres Q (rbind x g) (rbind y h).
Proof. destruct x, y; cbn; intros H K; try contradiction; auto. Qed.
Lemma rres_eq {A} (x : res A) : rres eq x x.
Proof. now destruct x. Qed.

Definition agree (F B : nat) (A : list (nat * nat)) (m m' : mem2) : Prop :=
  forall f b, f < F -> b < B -> ~ In (f, b) A -> m f b = m' f b.
Lemma agree_flat F B m m' : agree F B [] m m' -> flat F B m = flat F B m'.
Proof. intros H. unfold flat. apply map_ext_in. intros [f b] I. apply cells_in in I. apply H; tauto. Qed.

Lemma assign_sim F B A m m' acc vals : agree F B A m m' -> NoDup acc -> incl A acc ->
  rres (agree F B []) (assign F B m acc vals) (assign F B m' acc vals).
Proof.
  intros H ND IN. unfold assign. destruct (length acc =? length vals) eqn:L; cbn [guard rbind]; [|reflexivity].
  destruct (in_range F B acc); cbn [guard rbind rres]; [|reflexivity]. apply Nat.eqb_eq in L.
  intros f b Hf Hb _. destruct (in_dec cell_eq_dec (f, b) acc) as [I|I].
  - destruct (upds_in acc vals m f b ND L I) as [i [I1 I2]]. destruct (upds_in acc vals m' f b ND L I) as [i' [I1' I2']].
    assert (i = i'). { eapply NoDup_nth_error; eauto. apply nth_error_Some. congruence. congruence. } congruence.
  - rewrite !upds_other by auto. apply H; auto.
Qed.

(** Same states up to the three arrays, which agree on the cells outside A. *)
Record sim (F B : nat) (A : list (nat * nat)) (s s' : mstate) : Prop := {
  sm_cand : ms_cand s = ms_cand s'; sm_ns : ms_ns s = ms_ns s'; sm_exact : ms_exact s = ms_exact s';
  sm_hists : ms_hists s = ms_hists s'; sm_pop : ms_pop s = ms_pop s'; sm_q : ms_q s = ms_q s'; sm_gen : ms_gen s = ms_gen s';
  sm_est : agree F B A (ms_est s) (ms_est s'); sm_lcb : agree F B A (ms_lcb s) (ms_lcb s'); sm_ucb : agree F B A (ms_ucb s) (ms_ucb s') }.

Lemma argmin_from_bound l : forall i best bv, best < i -> argmin_from i best bv l < i + length l.
Proof.
  induction l as [|a l IH]; intros i best bv H; cbn [argmin_from length]; [lia|].
  destruct (is_nan bv); [lia|]. destruct (is_nan a); [lia|]. destruct (xlt a bv).
  - specialize (IH (S i) i a). lia.
  - specialize (IH (S i) best bv). lia.
Qed.
Lemma argmin_bound F B (m : mem2) a : argmin (flat F B m) = Ok a -> a / B < F /\ a mod B < B.
Proof.
  intros H. assert (a < F * B).
  { rewrite <- cells_length. unfold argmin, flat in H. destruct (cells F B) as [|c l]; [discriminate|]. cbn [map] in H. injection H as <-.
    eapply Nat.lt_le_trans; [apply argmin_from_bound; lia|]. rewrite map_length. cbn [length]. lia. }
  assert (B <> 0) by nia. split; [|now apply Nat.mod_upper_bound]. apply Nat.div_lt_upper_bound; auto. lia.
Qed.

Lemma filter_ext_in' {A} (p q : A -> bool) l : (forall a, In a l -> p a = q a) -> filter p l = filter q l.
Proof. induction l; intros H; cbn; auto. rewrite (H a (or_introl eq_refl)), IHl; auto. intros; apply H; now right. Qed.

Lemma sample_block_sim M k A s s' : sim (mc_F k) (mc_B k) A s s' -> NoDup (ms_cand s) -> incl A (ms_cand s) ->
  rres (fun x y => sim (mc_F k) (mc_B k) [] (fst x) (fst y) /\ snd x = snd y) (sample_block M k s) (sample_block M k s').
Proof.
  intros [S1 S2 S3 S4 S5 S6 S7 S8 S9 S10] ND IN. unfold sample_block. rewrite <- S1, <- S2, <- S3, <- S4, <- S5, <- S6, <- S7.
  eapply rres_bind; [apply rres_eq|]. intros acc acc' EA _ <-.
  assert (acc = ms_cand s) by (unfold accesses in EA; destruct (ms_cand s); [discriminate|now injection EA]). subst acc.
  eapply rres_bind; [apply rres_eq|]. intros r ? _ _ <-.
  eapply rres_bind; [eapply assign_sim; eauto|]. intros est est' _ _ AE.
  eapply rres_bind; [eapply assign_sim; eauto|]. intros lcb lcb' _ _ AL.
  eapply rres_bind; [eapply assign_sim; eauto|]. intros ucb ucb' _ _ AU.
  destruct (over_budget _ _); [cbn; split; auto; constructor; auto|].
  rewrite <- (agree_flat _ _ _ _ AL), <- (agree_flat _ _ _ _ AE), <- (agree_flat _ _ _ _ AU).
  eapply rres_bind; [apply rres_eq|]. intros lm ? _ _ <-. destruct (xlt (Fin 0) lm); [cbn; split; auto; constructor; auto|].
  eapply rres_bind; [apply rres_eq|]. intros ai ? EAI _ <-.
  eapply rres_bind; [apply rres_eq|]. intros um ? _ _ <-.
  cbn [rres fst snd]. split; auto. constructor; auto. cbn [ms_cand]. apply filter_ext_in'. intros [f b] I. apply cells_in in I. cbn [fst snd].
  rewrite (AL f b) by (auto; tauto). destruct (argmin_bound _ _ _ _ EAI) as [R1 R2].
  assert (T : tied k est (ai / mc_B k, ai mod mc_B k) f b = tied k est' (ai / mc_B k, ai mod mc_B k) f b).
  { unfold tied, upd. cbn [fst snd]. destruct ((f =? _) && (b =? _)); auto. rewrite (AE f b) by (auto; tauto). now rewrite (AE _ _ R1 R2) by auto. }
  now rewrite T.
Qed.

Definition exact_cells (k : mcfg) (s : mstate) : list (nat * nat) :=
  filter (fun c => (mc_N k <=? ms_ns s (fst c) (snd c) + mc_batch k)
                              && negb (ms_exact s (fst c) (snd c))) (cells (mc_F k) (mc_B k)).
Lemma exact_block_sim M k A s s' : sim (mc_F k) (mc_B k) A s s' ->
  exact_cells k s = [] \/ incl A (exact_cells k s) ->
  rres (fun x y => (sim (mc_F k) (mc_B k) [] (fst x) (fst y) \/ fst x = s /\ fst y = s') /\ snd x = snd y) (exact_block M k s) (exact_block M k s').
Proof.
  intros S IN. pose proof S as [S1 S2 S3 S4 S5 S6 S7 S8 S9 S10]. unfold exact_block. cbv zeta. rewrite <- S2, <- S3, <- S4, <- S5, <- S6, <- S7.
  fold (exact_cells k s). destruct (length (exact_cells k s) =? 0) eqn:Z; [cbn; auto|]. apply Nat.eqb_neq in Z.
  destruct IN as [IN|IN]; [rewrite IN in Z; now destruct Z|].
  assert (ND : NoDup (exact_cells k s)) by apply NoDup_filter, cells_nodup.
  eapply rres_bind; [apply rres_eq|]. intros hs ? _ _ <-.
  eapply rres_bind; [apply rres_eq|]. intros r ? _ _ <-.
  eapply rres_bind; [eapply assign_sim; eauto|]. intros est est' _ _ AE.
  eapply rres_bind; [eapply assign_sim; eauto|]. intros lcb lcb' _ _ AL.
  eapply rres_bind; [eapply assign_sim; eauto|]. intros ucb ucb' _ _ AU.
  rewrite <- (agree_flat _ _ _ _ AL), <- (agree_flat _ _ _ _ AU).
  eapply rres_bind; [apply rres_eq|]. intros um ? _ _ <-.
  eapply rres_bind; [apply rres_eq|]. intros lm ? _ _ <-.
  cbn [rres fst snd]. split; auto. left. constructor; auto. cbn [ms_cand]. apply filter_ext_in'. intros [f b] I. apply cells_in in I. cbn [fst snd].
  now rewrite (AL f b) by (auto; tauto).
Qed.

(** Whether the arrays are still partly uninitialised. *)
Lemma body_sim M k A s s' : sim (mc_F k) (mc_B k) A s s' -> NoDup (ms_cand s) ->
  (A = [] \/ (incl A (ms_cand s) /\ 1 < length (ms_cand s) /\ ms_pop s <> Some [])) ->
  (exact_cells k s = [] \/ incl A (exact_cells k s)) ->
  (forall x b, exact_block M k s = Ok (x, b) -> NoDup (ms_cand x)) ->
  (exact_cells k s = [] -> forall x b, exact_block M k s = Ok (x, b) -> x = s /\ b = false) ->
  rres (fun x y => sim (mc_F k) (mc_B k) [] (fst x) (fst y) /\ snd x = snd y) (mab_body M k s) (mab_body M k s').
Proof.
  intros S ND HA HE NX EX. unfold mab_body.
  assert (G : rres (fun x y => (sim (mc_F k) (mc_B k) [] (fst x) (fst y) \/ (fst x = s /\ fst y = s' /\ snd x = false)) /\ snd x = snd y /\ NoDup (ms_cand (fst x)))
     (if mc_repl k then exact_block M k s else Ok (s, false)) (if mc_repl k then exact_block M k s' else Ok (s', false))).
  { destruct (mc_repl k); [|cbn; auto]. pose proof (exact_block_sim M k A s s' S HE) as K.
    destruct (exact_block M k s) as [[x b]|] eqn:E1, (exact_block M k s') as [[y b']|] eqn:E2; cbn in *; auto. destruct K as [K <-].
    specialize (NX x b eq_refl). split; [|auto]. destruct K as [K|[-> ->]]; auto.
    destruct HE as [HE|HE].
    - right. destruct (EX HE s b eq_refl). auto.
    - left. destruct HA as [->|HA]; auto.
      unfold exact_block in E1. cbv zeta in E1. fold (exact_cells k s) in E1.
      destruct (length (exact_cells k s) =? 0) eqn:Z.
      + apply Nat.eqb_eq in Z. assert (exact_cells k s = []) by (destruct (exact_cells k s); [auto|discriminate]). rewrite H in HE.
        assert (A = []) by (destruct A as [|a l]; auto; destruct (HE a (or_introl eq_refl))). now subst.
      + exfalso. apply Nat.eqb_neq in Z.
        (* the block changed the exactness marks, so it cannot have returned s itself *)
        apply rbind_ok in E1. destruct E1 as [hs [_ E1]]. apply rbind_ok in E1. destruct E1 as [r [_ E1]].
        apply rbind_ok in E1. destruct E1 as [est [_ E1]]. apply rbind_ok in E1. destruct E1 as [lcb [_ E1]].
        apply rbind_ok in E1. destruct E1 as [ucb [_ E1]]. apply rbind_ok in E1. destruct E1 as [um [_ E1]].
        apply rbind_ok in E1. destruct E1 as [lm [_ E1]]. apply ok_pair_inv in E1. destruct E1 as [E1 _].
        apply (f_equal ms_exact) in E1. cbn [ms_exact] in E1.
        destruct (exact_cells k s) as [|[f b0] l] eqn:EC; [cbn in Z; lia|].
        assert (I : In (f, b0) (exact_cells k s)) by (rewrite EC; now left).
        pose proof I as I2. unfold exact_cells in I2. apply filter_In in I2. destruct I2 as [_ I2]. cbn [fst snd] in I2.
        apply andb_true_iff in I2. destruct I2 as [_ I2]. apply negb_true_iff in I2.
        assert (ms_exact s f b0 = true); [|congruence]. rewrite <- E1. rewrite <- EC. now apply upd_const_in. }
  eapply rres_bind; [exact G|]. intros [x b] [y b'] E1 E2 [K [K2 K3]]. cbn [fst snd] in *. subst b'.
  destruct K as [K|[-> [-> ->]]].
  - destruct b; [cbn; auto|]. rewrite <- (sm_cand _ _ _ _ _ K), <- (sm_pop _ _ _ _ _ K).
    destruct (length (ms_cand x) <=? 1); [cbn; auto|].
    assert (SB := sample_block_sim M k [] x y K K3 (fun a (i : In a []) => False_ind _ i)).
    destruct (ms_pop x) as [[|]|]; [cbn; auto|exact SB|exact SB].
  - rewrite <- (sm_cand _ _ _ _ _ S), <- (sm_pop _ _ _ _ _ S).
    destruct HA as [->|[HA [L NP]]].
    + destruct (length (ms_cand s) <=? 1); [cbn; auto|].
      assert (SB := sample_block_sim M k [] s s' S ND (fun a (i : In a []) => False_ind _ i)).
      destruct (ms_pop s) as [[|]|]; [cbn; auto|exact SB|exact SB].
    + assert (Z : (length (ms_cand s) <=? 1) = false) by (apply Nat.leb_gt; lia). rewrite Z.
      assert (SB := sample_block_sim M k A s s' S ND HA).
      destruct (ms_pop s) as [[|]|]; [congruence|exact SB|exact SB].
Qed.

Lemma block_nodup M k s x b : exact_block M k s = Ok (x, b) -> NoDup (ms_cand s) -> NoDup (ms_cand x).
Proof.
  unfold exact_block. cbv zeta. intros E1 ND. destruct (length _ =? 0); [now injection E1 as <- _|].
  apply rbind_ok in E1. destruct E1 as [hs [_ E1]]. apply rbind_ok in E1. destruct E1 as [r [_ E1]].
  apply rbind_ok in E1. destruct E1 as [est [_ E1]]. apply rbind_ok in E1. destruct E1 as [lcb [_ E1]].
  apply rbind_ok in E1. destruct E1 as [ucb [_ E1]]. apply rbind_ok in E1. destruct E1 as [um [_ E1]].
  apply rbind_ok in E1. destruct E1 as [lm [_ E1]]. apply ok_pair_inv in E1. destruct E1 as [<- _]. cbn [ms_cand]. apply NoDup_filter, cells_nodup.
Qed.
Lemma sample_nodup M k s x b : sample_block M k s = Ok (x, b) -> NoDup (ms_cand s) -> NoDup (ms_cand x).
Proof.
  unfold sample_block. intros H ND. apply rbind_ok in H. destruct H as [acc [_ H]]. apply rbind_ok in H. destruct H as [r [_ H]].
  apply rbind_ok in H. destruct H as [est [_ H]]. apply rbind_ok in H. destruct H as [lcb [_ H]]. apply rbind_ok in H. destruct H as [ucb [_ H]].
  destruct (over_budget _ _); [now injection H as <- <-|]. apply rbind_ok in H. destruct H as [lm [_ H]].
  destruct (xlt _ _); [now injection H as <- <-|]. apply rbind_ok in H. destruct H as [ai [_ H]]. apply rbind_ok in H. destruct H as [um [_ H]].
  injection H as <- <-. cbn [ms_cand]. apply NoDup_filter, cells_nodup.
Qed.
Lemma body_nodup M k s x b : mab_body M k s = Ok (x, b) -> NoDup (ms_cand s) -> NoDup (ms_cand x).
Proof.
  unfold mab_body. intros H ND. apply rbind_ok in H. destruct H as [[s1 b1] [E H]].
  assert (ND1 : NoDup (ms_cand s1)) by (destruct (mc_repl k); [eapply block_nodup; eauto|now injection E as <- _]).
  destruct b1; [now injection H as <- _|]. destruct (_ <=? 1); [now injection H as <- _|].
  destruct (ms_pop s1) as [[|]|]; [now injection H as <- _| |]; eapply sample_nodup; eauto.
Qed.
Lemma block_none M k s x b : exact_cells k s = [] -> exact_block M k s = Ok (x, b) -> x = s /\ b = false.
Proof. unfold exact_block. cbv zeta. fold (exact_cells k s). intros ->. cbn. intros H. apply ok_pair_inv in H. destruct H; auto. Qed.

Lemma loop_sim M k fuel : forall s s', sim (mc_F k) (mc_B k) [] s s' -> NoDup (ms_cand s) ->
  rres (sim (mc_F k) (mc_B k) []) (mab_loop M k fuel s) (mab_loop M k fuel s').
Proof.
  induction fuel as [|fuel IH]; intros s s' S ND; cbn [mab_loop]; rewrite <- (sm_cand _ _ _ _ _ S); destruct (5 <? length (ms_cand s)); cbn; auto.
  eapply rres_bind.
  - apply (body_sim M k [] s s'); auto.
    + right. intros a [].
    + intros x b E. eapply block_nodup; eauto.
    + intros. eapply block_none; eauto.
  - intros [x b] [y b'] E _ [K1 K2]. cbn [fst snd] in *. subst b'. destruct b; [cbn; auto|]. apply IH; auto. eapply body_nodup; eauto.
Qed.

(** From the first iteration on. *)
Lemma loop_sim_first M k A fuel s s' : sim (mc_F k) (mc_B k) A s s' -> NoDup (ms_cand s) -> incl A (ms_cand s) ->
  5 < length (ms_cand s) -> ms_pop s <> Some [] -> (exact_cells k s = [] \/ incl A (exact_cells k s)) ->
  rres (sim (mc_F k) (mc_B k) []) (mab_loop M k fuel s) (mab_loop M k fuel s').
Proof.
  intros S ND IN L5 NP HE. destruct fuel as [|fuel]; cbn [mab_loop]; rewrite <- (sm_cand _ _ _ _ _ S), (proj2 (Nat.ltb_lt _ _) L5); [reflexivity|].
  eapply rres_bind.
  - apply (body_sim M k A s s'); auto.
    + right. split; auto. split; [lia|auto].
    + intros x b E. eapply block_nodup; eauto.
    + intros. eapply block_none; eauto.
  - intros [x b] [y b'] E _ [K1 K2]. cbn [fst snd] in *. subst b'. destruct b; [cbn; auto|]. apply loop_sim; auto. eapply body_nodup; eauto.
Qed.

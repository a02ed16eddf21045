(** Values of the stability metrics, the forests of an importance object and permutation
    scores. *)
From Coq Require Import List Arith Bool ZArith QArith Qcanon Lia Permutation.
From Verif Require Import Base Num Rng Histogram Utils Criteria Solvers Tree Forest Samples Permutation.
From Verif Require Import Spec TreeSpec ForestSpec PermSpec ListFacts NumFacts TreeFacts UtilsFacts ForestFacts ForestMdi ForestLife ForestRepro ForestThms TreeWitness ForestWitness PermFacts PermLife PermWitness.
Import ListNotations.
Local Open Scope nat_scope.

Lemma inter_card v1 v2 k : card (in_both v1 v2 k) (inter_size (firstn k v1) (firstn k v2)).
Proof. eexists. split; [apply NoDup_filter, nunique_nodup|]. split; [|reflexivity]. intros x. apply inter_list_in. Qed.
Lemma union_card v1 v2 k : card (in_either v1 v2 k) (union_size (firstn k v1) (firstn k v2)).
Proof. eexists. split; [apply nunique_nodup|]. split; [|reflexivity]. intros x. rewrite nunique_in, in_app_iff. reflexivity. Qed.

Lemma jaccard_value v1 v2 : v1 <> [] -> exists I U, (forall i, card (in_both v1 v2 (i + 1)) (I i) /\ card (in_either v1 v2 (i + 1)) (U i)) /\
  pairwise_stability JACCARD v1 v2 = Ok (total (map (fun i => rat (I i) / rat (U i))%Qc (seq 1 (length v1 - 1))) / rat (length v1))%Qc.
Proof.
  intros N. exists (fun i => inter_size (firstn (i + 1) v1) (firstn (i + 1) v2)), (fun i => union_size (firstn (i + 1) v1) (firstn (i + 1) v2)).
  split; [intros i; split; [apply inter_card|apply union_card]|]. unfold pairwise_stability. destruct v1; [contradiction|]. reflexivity.
Qed.
Lemma kuncheva_value v1 v2 : v1 <> [] -> exists I, (forall i, card (in_both v1 v2 (i + 1)) (I i)) /\
  pairwise_stability KUNCHEVA v1 v2 = Ok (total (map (fun i => (rat (I i) - rat i * rat i / rat (length v1)) / (rat i - rat i * rat i * rat (length v1)))%Qc (seq 1 (length v1 - 1))) / rat (length v1))%Qc.
Proof.
  intros N. exists (fun i => inter_size (firstn (i + 1) v1) (firstn (i + 1) v2)).
  split; [intros i; apply inter_card|]. unfold pairwise_stability. destruct v1; [contradiction|]. reflexivity.
Qed.
Lemma card_unique A n m : card A n -> card A m -> n = m.
Proof. intros (l & N1 & I1 & <-) (l' & N2 & I2 & <-). apply nodup_same_length; auto. intros x. rewrite I1, I2. tauto. Qed.

(** ** All pairs *)
Lemma qsum_flat {A B} (g : B -> Qc) (f : A -> list B) l : qsum (map g (flat_map f l)) = qsum (map (fun a => qsum (map g (f a))) l).
Proof. induction l as [|a l IH]; cbn [flat_map map qsum]; auto. rewrite map_app, qsum_app, IH. reflexivity. Qed.
Lemma seq_list {A} (d : A) l : map (fun i => nth i l d) (seq 0 (length l)) = l.
Proof. induction l as [|a l IH]; cbn [length seq map nth]; auto. f_equal. rewrite <- seq_shift, map_map. exact IH. Qed.
Lemma pairs_sum {A} (g : A -> A -> Qc) (d : A) l :
  qsum (map (fun ab => g (fst ab) (snd ab)) (pairs l)) = qsum (map (fun i => qsum (map (fun j => g (nth i l d) (nth j l d)) (seq (S i) (length l - S i)))) (seq 0 (length l))).
Proof.
  induction l as [|a l IH]; [reflexivity|]. cbn [pairs length seq map qsum]. rewrite map_app, qsum_app, map_map. cbn [fst snd]. f_equal.
  - cbn [nth]. f_equal. replace (S (length l) - 1) with (length l) by lia. rewrite <- seq_shift, map_map. cbn [nth]. rewrite <- (map_map (fun j => nth j l d) (fun b => g a b)), seq_list. reflexivity.
  - rewrite IH, <- seq_shift, map_map. f_equal. apply map_ext. intros i. cbn [nth Nat.sub]. f_equal. rewrite <- (seq_shift (length l - S i) (S i)), map_map. reflexivity.
Qed.
Lemma pairwise_average m imp W : m <> MetricOther -> 2 <= W -> rectangular W imp -> 2 <= length imp ->
  exists s, (forall i j, i < length imp -> j < length imp -> pairwise_stability m (dense_ranks (nth i imp [])) (dense_ranks (nth j imp [])) = Ok (s i j)) /\
    stability_pairwise m imp = Ok (rat 2 * total (map (fun i => total (map (s i) (seq (S i) (length imp - S i)))) (seq 0 (length imp))) / (rat (length imp) * (rat (length imp) - 1)))%Qc.
Proof.
  intros NM W2 R L. exists (fun i j => gval m (dense_ranks (nth i imp [])) (dense_ranks (nth j imp []))). split.
  - intros i j I J. apply gval_ok; auto; rewrite !rank_length, !R; auto; apply nth_In; auto.
  - rewrite (pairwise_value m imp W) by auto. do 3 f_equal. change total with qsum. rewrite (pairs_sum (gval m) (dense_ranks [])), map_length. apply f_equal. apply map_ext_in. intros i I.
    apply f_equal. apply map_ext_in. intros j J. apply in_seq in I, J. rewrite !map_nth. reflexivity.
Qed.

(** ** The forests *)
Section Forests.
Context (M : math) (P : prng) (c : pcfg).

Lemma settings_ok seed : importance_settings c (forest_cfg c seed).
Proof. constructor; try reflexivity. cbn. repeat split; reflexivity. Qed.

Definition made_with (seed : nat) (f : forest) : Prop :=
  exists fc h e f0 e0 h1 e1, importance_settings c fc /\ fc_seed fc = seed /\ forest_new P fc (Some (pc_data c)) (Some (pc_labels c)) None (pc_budget c) h e = Ok (f0, e0) /\
    forest_fit M P fc f0 (None, None) h e0 = Ok (f, h1, e1).

Lemma train_seeds n : forall k s h e s' h' e', foldM (fun she (_ : nat) => let '(s, h, e) := she in let (seed, gen') := draw (ps_gen s) in
     train_forest M P c {| ps_gen := gen'; ps_forests := ps_forests s; ps_train := ps_train s |} seed h e) (s, h, e) (seq k n) = Ok (s', h', e') ->
  exists fs, ps_forests s' = ps_forests s ++ fs /\ Forall2 made_with (draws n (ps_gen s)) fs.
Proof.
  induction n as [|n IH]; intros k s h e s' h' e' H; cbn [seq foldM draws] in *.
  - injection H as <- _ _. exists []. rewrite app_nil_r. auto.
  - apply rbind_ok in H. destruct H as [[[s1 h1] e1] [E H]]. destruct (draw (ps_gen s)) as [seed gen'] eqn:D. cbn [fst snd].
    unfold train_forest in E. apply rbind_ok in E. destruct E as [[f0 e0] [E1 E]]. apply rbind_ok in E. destruct E as [[[f h2] e2] [E2 E]]. cbn [fst snd] in E2.
    apply ok_inv in E. apply pair_equal_spec in E. destruct E as [E <-]. apply pair_equal_spec in E. destruct E as [<- <-].
    destruct (IH _ _ _ _ _ _ _ H) as (fs & F1 & F2). cbn [ps_forests ps_gen] in *. exists (f :: fs). rewrite F1, <- app_assoc. split; auto. constructor; auto.
    exists (forest_cfg c seed), h, e, f0, e0, h2, e2. split; [apply settings_ok|]. auto.
Qed.

Lemma array_forests s h e rows s' h' e' : pc_score c = IImpurity -> perm_reach M P c s -> get_importance_array M P c s h e = Ok (rows, s', h', e') ->
  exists fs, map f_trees (ps_forests s') = map f_trees (ps_forests s ++ fs) /\ Forall2 made_with (draws (pc_forests c) (ps_gen s)) fs.
Proof.
  intros SC R H. pose proof (reach_trained M P c s R SC) as TS. unfold get_importance_array in H. apply rbind_ok in H. destruct H as [[[s1 h1] e1] [E H]]. pose proof E as E'. apply train_all in E'. cbn [ps_forests ps_train] in E'. destruct E' as (fs & E1 & E2 & E3 & E4).
  destruct (train_seeds _ _ _ _ _ _ _ _ E) as (fs' & F1 & F2). cbn [ps_forests ps_gen] in *.
  destruct (rows_loop M P c SC s1 h1 E3) as (rows' & s2 & L & F & T & _ & _ & TR & NN); [rewrite E1; apply Forall_app; auto|]. rewrite L in H. cbn [rbind fst snd] in H. apply ok_inv in H. apply pair_equal_spec in H. destruct H as [H _]. apply pair_equal_spec in H. destruct H as [H _]. apply pair_equal_spec in H. destruct H as [<- <-].
  exists fs'. rewrite TR, F1. auto.
Qed.
Lemma perm_accepts seed e : (exists s e', perm_new P c seed e = Ok (s, e')) <-> 2 <= pc_forests c.
Proof.
  unfold perm_new. destruct (Nat.ltb_spec 1 (pc_forests c)); cbn [guard rbind].
  - split; [intros _; lia|]. intros _. eauto.
  - split; [intros (s & e' & Q); discriminate Q|lia].
Qed.
Lemma perm_start seed e s e' : perm_new P c seed e = Ok (s, e') -> ps_forests s = [] /\ ps_gen s = seed_gen P seed.
Proof. unfold perm_new. intros H. apply rbind_ok in H. destruct H as [u [_ H]]. apply ok_pair_inv in H. destruct H as [<- _]. auto. Qed.

(** ** Permutation scores *)
Lemma seq_card (p : nat -> bool) n : card (fun i => i < n /\ p i = true) (length (filter p (seq 0 n))).
Proof. eexists. split; [apply NoDup_filter, seq_NoDup|]. split; [|reflexivity]. intros x. rewrite filter_In, in_seq. split; intros [A B]; split; auto; lia. Qed.
Lemma filter_seq {A} (p : A -> bool) (d : A) l : length (filter p l) = length (filter (fun i => p (nth i l d)) (seq 0 (length l))).
Proof. rewrite <- (seq_list d l) at 1. apply filter_map_length. Qed.

Lemma hits_ok cl ps labels n : model_hits cl ps labels = Ok n -> hits_spec cl ps labels n.
Proof.
  unfold model_hits, hits_spec. destruct cl; intros H.
  - apply rbind_ok in H. destruct H as [ls [E H]]. apply rbind_ok in H. destruct H as [u [G H]]. injection H as <-. destruct (Nat.eqb_spec (length ls) (length labels)) as [L|]; [|discriminate G]. exists ls. split; [|split; auto].
    + apply mapM_Forall2 in E. clear -E. induction E as [|p l ps ls E F IH]; constructor; auto. destruct p; try discriminate E; injection E as <-; eauto.
    + rewrite (filter_seq _ (0%Qc, 0%Qc)), combine_length, L, Nat.min_id. destruct (seq_card (fun i => qeq (fst (nth i (combine ls labels) (0%Qc, 0%Qc))) (snd (nth i (combine ls labels) (0%Qc, 0%Qc)))) (length labels)) as (l & A & B & C).
      exists l. split; auto. split; auto. intros x. rewrite B. rewrite combine_nth by auto. cbn [fst snd]. rewrite qeq_spec. tauto.
  - apply rbind_ok in H. destruct H as [p [E H]]. apply nth_res_ok in E. exists p. split; auto. destruct p; try discriminate H; injection H as <-; auto. right. exists v. split; auto.
    rewrite (filter_seq _ 0%Qc). destruct (seq_card (fun i => qeq v (nth i labels 0%Qc)) (length labels)) as (l & A & B & C). exists l. split; auto. split; auto. intros x. rewrite B, qeq_spec. split; intros [? ?]; auto.
Qed.

Lemma permutation_scores s i h vec s' W : pc_score c = IPermutation -> rectangular W (pc_data c) -> compute_importance_vec c s i h = Ok (vec, s') ->
  exists fc f la ps f1 hits, importance_settings c fc /\ nth_error (ps_forests s) i = Some f /\ nth_error h (pc_labels c) = Some la /\ forest_predict_batch fc f (pc_data c) = Ok (ps, f1) /\
    hits_spec (pc_class c) ps (la_vals la) hits /\ length vec = W /\
    forall j v, nth_error vec j = Some v -> exists d g sc g', column_shuffled W (pc_data c) d j /\ used fc h f g /\ get_oob_score fc g h (Some d) = Ok (sc, g') /\ v = distance (Fin (rat hits)) sc.
Proof.
  intros SC R H. unfold compute_importance_vec in H. apply rbind_ok in H. destruct H as [u [_ H]]. apply rbind_ok in H. destruct H as [f [EF H]]. apply nth_res_ok in EF. rewrite SC in H.
  apply rbind_ok in H. destruct H as [[ps f1] [EP H]]. apply rbind_ok in H. destruct H as [la [EL H]]. apply nth_res_ok in EL. apply rbind_ok in H. destruct H as [hits [EH H]]. apply rbind_ok in H. destruct H as [r0 [ER H]]. apply nth_res_ok in ER.
  apply rbind_ok in H. destruct H as [[[vec' f2] gen2] [EV H]]. apply ok_pair_inv in H. destruct H as [<- _]. cbn [fst snd] in *. assert (LW : length r0 = W) by (apply R, (nth_error_In _ _ ER)). rewrite LW in EV.
  exists (any_cfg c), f, la, ps, f1, hits. split; [apply settings_ok|]. split; auto. split; auto. split; auto. split; [now apply hits_ok|].
  assert (K : forall n k vec0 g gen vec2 g2 gen2, length vec0 = k -> k + n = W -> used (any_cfg c) h f g ->
    (forall j v, nth_error vec0 j = Some v -> exists d g sc g', column_shuffled W (pc_data c) d j /\ used (any_cfg c) h f g /\ get_oob_score (any_cfg c) g h (Some d) = Ok (sc, g') /\ v = distance (Fin (rat hits)) sc) ->
    foldM (fun acc j => let '(vec, f, gen) := acc in let (d, gen') := shuffle_column (pc_data c) j gen in do sf <- get_oob_score (any_cfg c) f h (Some d); Ok (vec ++ [xabs (xsub (Fin (Nq hits)) (fst sf))], snd sf, gen'))
       (vec0, g, gen) (seq k n) = Ok (vec2, g2, gen2) ->
    length vec2 = W /\ forall j v, nth_error vec2 j = Some v -> exists d g sc g', column_shuffled W (pc_data c) d j /\ used (any_cfg c) h f g /\ get_oob_score (any_cfg c) g h (Some d) = Ok (sc, g') /\ v = distance (Fin (rat hits)) sc).
  { clear EV vec' f2 gen2. induction n as [|n IH]; intros k vec0 g gen vec2 g2 gen2 L0 KN U V0 Q; cbn [seq foldM] in Q.
    - injection Q as <- _ _. split; [lia|auto].
    - apply rbind_ok in Q. destruct Q as [[[v1 g1] t1] [E Q]]. destruct (shuffle_column (pc_data c) k gen) as [d gen'] eqn:SH. apply rbind_ok in E. destruct E as [[sc g'] [EO E]]. cbn [fst snd] in E.
      apply ok_inv in E. apply pair_equal_spec in E. destruct E as [E <-]. apply pair_equal_spec in E. destruct E as [<- <-].
      apply (IH (S k)) in Q; auto.
      + rewrite app_length. cbn. lia.
      + lia.
      + eapply used_oob; eauto.
      + intros j v J. destruct (le_lt_dec (length vec0) j) as [GE|LT].
        * rewrite nth_error_app2 in J by auto. destruct (j - length vec0) as [|z] eqn:DJ; [|destruct z; discriminate J]. injection J as <-. assert (j = k) by lia. subst j. exists d, g, sc, g'. split; [|auto].
          pose proof (shuffle_spec W (pc_data c) k gen R ltac:(lia)) as SS. rewrite SH in SS. exact SS.
        * rewrite nth_error_app1 in J by auto. auto. }
  eapply (K W 0 []); eauto.
  - eapply used_batch; [apply used_not|exact EP].
  - intros [|j] v J; discriminate J.
Qed.

Lemma baseline_value order k s h e v s' h' e' : run_baseline order M P c s k h e = Ok (v, s', h', e') ->
  exists rows imp, get_importance_array M P c s h e = Ok (rows, s', h', e') /\ rows = map (map Fin) imp /\
    match k with None => exists q, v = Fin q /\ stability_pairwise (pc_metric c) imp = Ok q | Some k => stability_freq order imp k = Ok v end.
Proof.
  unfold run_baseline. intros H. apply rbind_ok in H. destruct H as [[[[rows s1] h1] e1] [E H]]. apply rbind_ok in H. destruct H as [imp [EI H]]. apply rbind_ok in H. destruct H as [w [EW H]].
  apply ok_inv in H. apply pair_equal_spec in H. destruct H as [H <-]. apply pair_equal_spec in H. destruct H as [H <-]. apply pair_equal_spec in H. destruct H as [<- <-].
  exists rows, imp. split; auto. split.
  - apply mapM_Forall2 in EI. clear -EI. induction EI as [|r i rows imp E F IH]; cbn [map]; auto. f_equal; auto. apply mapM_Forall2 in E. clear -E. induction E as [|x y l m E F IH]; cbn [map]; auto. f_equal; auto. destruct x; try discriminate E. now injection E as <-.
  - destruct k; [auto|]. apply rbind_ok in EW. destruct EW as [q [EQ EW]]. injection EW as <-. eauto.
Qed.
End Forests.

Lemma perm_vec_ex : exists s rows s1 h1 e1, perm_new P1 (pc0 true IPermutation) 4 env0 = Ok (s, set_seed P1 4 env0) /\ get_importance_array M0 P1 (pc0 true IPermutation) s (heap_of Y6) (set_seed P1 4 env0) = Ok (rows, s1, h1, e1) /\
  rectangular 3 (pc_data (pc0 true IPermutation)) /\ exists vec s2, compute_importance_vec (pc0 true IPermutation) s1 0 h1 = Ok (vec, s2) /\ length vec = 3.
Proof.
  assert (K : check (perm_new P1 (pc0 true IPermutation) 4 env0) (fun a => check (get_importance_array M0 P1 (pc0 true IPermutation) (fst a) (heap_of Y6) (set_seed P1 4 env0)) (fun b =>
     check (compute_importance_vec (pc0 true IPermutation) (snd (fst (fst b))) 0 (snd (fst b))) (fun v => length (fst v) =? 3))) = true) by (vm_compute; reflexivity).
  take K. take K. take K. destruct x as [s e0], x0 as [[[rows s1] h1] e1], x1 as [vec s2]. cbn [fst snd] in *. assert (e0 = set_seed P1 4 env0) as ->. { unfold perm_new in H. cbn in H. injection H as _ <-. reflexivity. }
  exists s, rows, s1, h1, e1. split; auto. split; auto. split.
  - intros r I. vm_compute in I. repeat (destruct I as [<-|I]; [reflexivity|]). destruct I.
  - exists vec, s2. split; auto. now apply Nat.eqb_eq.
Qed.
Lemma baseline_ex : check (run_baseline argsort0 M0 P1 (pc0 true IImpurity) {| ps_gen := seed_gen P1 4; ps_forests := []; ps_train := false |} None (heap_of Y6) (set_seed P1 4 env0)) (fun r => match fst (fst (fst r)) with Fin q => qlt 0 q | _ => false end) = true /\
  check (run_baseline argsort0 M0 P1 (pc0 true IImpurity) {| ps_gen := seed_gen P1 4; ps_forests := []; ps_train := false |} (Some 1%Z) (heap_of Y6) (set_seed P1 4 env0)) (fun _ => true) = true.
Proof. split; vm_compute; reflexivity. Qed.

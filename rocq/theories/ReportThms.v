(** The scores, the rounds and the report of a comparison. *)
From Coq Require Import List Arith Bool ZArith QArith Qcanon Lia.
From Verif Require Import Base Num Rng Histogram Utils Criteria Solvers Tree Forest Permutation Wrappers Compare Spec SolverSpec TreeSpec ForestSpec PermSpec StabSpec ReportSpec.
From Verif Require Import NumFacts ListFacts HistAdd TreeFacts ForestRepro PermFacts PermMore CompareThms StabThms.
Import ListNotations.
Local Open Scope nat_scope.

(** ** Scores *)
Lemma hits_sum ps ys l : length ps = length ys -> mapM (fun py => hit (fst py) (snd py)) (combine ps ys) = Ok l -> exists n, model_hits true ps ys = Ok n /\ xsum l = Fin (Nq n) /\ length l = length ys.
Proof.
  revert ys l. induction ps as [|p ps IH]; intros [|y ys] l L H; try discriminate L; cbn [combine mapM] in H.
  - apply ok_inv in H. subst l. exists 0. split; [reflexivity|]. split; [cbn; f_equal; now rewrite Nq_0|reflexivity].
  - apply rbind_ok in H. destruct H as [x [E H]]. apply rbind_ok in H. destruct H as [l' [E' H]]. apply ok_inv in H. subst l. cbn [fst snd] in E. destruct (IH ys l') as (n & A & B & C); [now injection L|auto|].
    unfold model_hits in A. apply rbind_ok in A. destruct A as [ls [A1 A]]. apply rbind_ok in A. destruct A as [u [A2 A]]. apply ok_inv in A. unfold model_hits. cbn [mapM].
    assert (K : exists q0, match p with FClass l _ => Ok l | FNanClass l => Ok l | _ => Err TypeError end = Ok q0 /\ x = if qeq q0 y then Fin 1%Qc else Fin 0%Qc) by (unfold hit in E; destruct p; try discriminate E; apply ok_inv in E; eauto).
    destruct K as (q0 & K1 & K2). exists ((if qeq q0 y then 1 else 0) + n). rewrite K1. cbn [rbind]. rewrite A1. cbn [rbind]. split.
    + cbn [length]. apply guard_ok in A2. rewrite Nat.eqb_eq in A2. rewrite A2, Nat.eqb_refl. cbn [guard rbind]. cbn [combine filter fst snd]. subst n. destruct (qeq q0 y); reflexivity.
    + split; [|cbn; lia]. change (xsum (x :: l')) with (xadd x (xsum l')). rewrite B, K2. destruct (qeq q0 y); cbn [xadd plus]; f_equal; [rewrite Nq_S; ring|ring].
Qed.
Lemma score_ok cl ps ys s : score cl ps ys = Ok s -> scored cl ps ys s.
Proof.
  intros H. unfold score in H. apply rbind_ok in H. destruct H as [u [G H]]. apply guard_ok in G. apply Nat.eqb_eq in G. apply rbind_ok in H. destruct H as [l [E H]]. apply ok_inv in H. subst s. unfold scored. destruct cl.
  - destruct (hits_sum _ _ _ G E) as (n & A & B & C). exists n. split; [now apply hits_ok|]. unfold xmean. rewrite B, C. destruct ys as [|y ys].
    + left. split; auto. cbn [length] in *. destruct ps; [|discriminate G]. cbn in A. apply ok_inv in A. subst n. reflexivity.
    + right. split; [discriminate|]. rewrite xdiv_fin by (apply Nq_neq0; cbn; lia). reflexivity.
  - split; auto. assert (K : (exists vs, ps = map FReg vs /\ l = map (fun vy => Fin ((fst vy - snd vy) * (fst vy - snd vy))%Qc) (combine vs ys)) \/ In FNanReg ps /\ In NaN l).
    { revert ys l G E. induction ps as [|p ps IH]; intros [|y ys] l G E; try discriminate G; cbn [combine mapM] in E.
      - apply ok_inv in E. subst l. left. exists []. auto.
      - apply rbind_ok in E. destruct E as [x [E0 E]]. apply rbind_ok in E. destruct E as [l' [E1 E]]. apply ok_inv in E. subst l. cbn [fst snd] in E0. destruct (IH ys l') as [(vs & -> & ->)|[I1 I2]]; [now injection G|auto| |].
        + unfold sq_err in E0. destruct p; try discriminate E0; apply ok_inv in E0; subst x; [left|right; split; now left]. exists (v :: vs). auto.
        + right. split; now right. }
    destruct K as [(vs & EV & EL)|[I1 I2]].
    + destruct ys as [|y ys]; [right; split; [now left|]; destruct vs; [subst l; reflexivity|subst ps; discriminate G]|]. left. exists vs. split; auto. split; [discriminate|]. subst l. rewrite (xmean_fin (fun vy => ((fst vy - snd vy) * (fst vy - snd vy))%Qc)); auto.
      destruct vs; [subst ps; discriminate G|discriminate].
    + right. split; auto. unfold xmean. now rewrite xsum_nan.
Qed.
Theorem judged tk c f h a : judge tk c f h = Ok a ->
  exists ps g y, forest_predict_batch c f (tk_X tk) = Ok (ps, g) /\ nth_error h (tk_y tk) = Some y /\ scored (w_class (tk_w tk)) ps (la_vals y) (en_train a) /\
    (tk_predict tk = false -> en_test a = None) /\
    (tk_predict tk = true -> exists qs g' yt s, forest_predict_batch c g (tk_testX tk) = Ok (qs, g') /\ nth_error h (tk_testy tk) = Some yt /\ en_test a = Some s /\ scored (w_class (tk_w tk)) qs (la_vals yt) s).
Proof.
  intros J. unfold judge in J. apply rbind_ok in J. destruct J as [[ps g] [E1 J]]. apply rbind_ok in J. destruct J as [y [E2 J]]. apply nth_res_ok in E2. apply rbind_ok in J. destruct J as [s [E3 J]]. cbn [fst snd] in *. exists ps, g, y.
  destruct (tk_predict tk).
  - apply rbind_ok in J. destruct J as [[qs g'] [E4 J]]. apply rbind_ok in J. destruct J as [yt [E5 J]]. apply nth_res_ok in E5. apply rbind_ok in J. destruct J as [st [E6 J]]. apply ok_inv in J. subst a. cbn [en_train en_test fst] in *.
    split; auto. split; auto. split; [now apply score_ok|]. split; [discriminate|]. intros _. exists qs, g', yt, st. split; auto. split; auto. split; auto. now apply score_ok.
  - apply ok_inv in J. subst a. cbn [en_train en_test]. split; auto. split; auto. split; [now apply score_ok|]. split; auto. discriminate.
Qed.

(** ** Rounds *)
Theorem rounds_chain M P tk n h e l h' e' : rounds M P tk n h e = Ok (l, h', e') -> length l = n /\ exists hs es, hs 0 = h /\ es 0 = e /\ hs n = h' /\ es n = e' /\
  forall i a b, nth_error l i = Some (a, b) -> round M P tk i (hs i) (es i) = Ok (a, b, hs (S i), es (S i)).
Proof.
  unfold rounds. revert l h' e'. induction n as [|n IH]; intros l h' e' H.
  - cbn in H. apply ok_inv in H. apply pair_equal_spec in H. destruct H as [H <-]. apply pair_equal_spec in H. destruct H as [<- <-]. split; auto. exists (fun _ => h), (fun _ => e). repeat split; auto. intros [|i] a b Q; discriminate Q.
  - rewrite seq_S, foldM_app in H. apply rbind_ok in H. destruct H as [[[l0 h0] e0] [E H]]. destruct (IH _ _ _ E) as (L & hs & es & A & B & C & D & R). cbn [plus foldM] in H. apply rbind_ok in H. destruct H as [[[l1 h1] e1] [E1 H]]. apply ok_inv in H. apply pair_equal_spec in H. destruct H as [H <-]. apply pair_equal_spec in H. destruct H as [<- <-].
    unfold one_more in E1. apply rbind_ok in E1. destruct E1 as [[[[a b] h2] e2] [ER E1]]. apply ok_inv in E1. apply pair_equal_spec in E1. destruct E1 as [E1 <-]. apply pair_equal_spec in E1. destruct E1 as [<- <-].
    split; [rewrite app_length; cbn; lia|]. exists (fun i => if le_lt_dec i n then hs i else h2), (fun i => if le_lt_dec i n then es i else e2).
    split; [now destruct (le_lt_dec 0 n); [|lia]|]. split; [now destruct (le_lt_dec 0 n); [|lia]|]. split; [now destruct (le_lt_dec (S n) n); [lia|]|]. split; [now destruct (le_lt_dec (S n) n); [lia|]|].
    intros i a0 b0 Q. destruct (Nat.lt_ge_cases i (length l0)) as [I|I].
    + rewrite nth_error_app1 in Q by auto. destruct (le_lt_dec i n); [|lia]. destruct (le_lt_dec (S i) n); [|lia]. now apply R.
    + rewrite nth_error_app2 in Q by auto. destruct (i - length l0) as [|d] eqn:DI; [|destruct d; discriminate Q]. injection Q as <- <-. assert (i = n) as -> by lia. destruct (le_lt_dec n n); [|lia]. destruct (le_lt_dec (S n) n); [lia|]. rewrite C, D. exact ER.
Qed.

(** ** The report *)
Lemma stat_finite M n l : root M -> length l = n -> 1 <= n -> stat_of M n (map Fin l) = summary M l.
Proof. intros R L N. subst n. apply stat_fin; auto. intros ->. cbn in N. lia. Qed.
Lemma somes_map {A B} (f : A -> B) l : somes (map (fun a => Some (f a)) l) = map f l. Proof. induction l; cbn; congruence. Qed.
Lemma side_summarises M predict n l : root M -> 1 <= n -> length l = n -> summarises M predict (side_of M predict n l) l.
Proof.
  intros R N L. unfold summarises, side_of. cbn [sd_queries sd_trees sd_train sd_test]. split; [|split; [|split]].
  - rewrite <- (map_map (fun a => rat (f_queries (en_forest a))) Fin). apply stat_finite; auto. now rewrite !map_length.
  - rewrite <- (map_map (fun a => rat (length (f_trees (en_forest a)))) Fin). apply stat_finite; auto. now rewrite !map_length.
  - intros q Q. rewrite Q. apply stat_finite; auto. apply (f_equal (@length _)) in Q. rewrite !map_length in Q. lia.
  - intros q PR Q. rewrite PR, Q. rewrite (somes_map Fin). f_equal. apply stat_finite; auto. apply (f_equal (@length _)) in Q. rewrite !map_length in Q. lia.
Qed.
Lemma round_two M P tk s h e a b h' e' : tk_theirs tk = true -> round M P tk s h e = Ok (a, b, h', e') -> exists b0, b = Some b0.
Proof.
  intros T H. unfold round in H. rewrite T in H. repeat (apply rbind_ok in H; let x := fresh "x" in let E := fresh "E" in destruct H as [x [E H]]; cbv beta iota in H; repeat match type of H with context [let '(_, _) := ?y in _] => destruct y end). apply ok_inv in H. apply pair_equal_spec in H. destruct H as [H _]. apply pair_equal_spec in H. destruct H as [H _]. apply pair_equal_spec in H. destruct H as [_ <-]. eauto.
Qed.
Theorem reported M P tk n h e rp h' e' : root M -> 1 <= n -> compare M P tk n h e = Ok (rp, h', e') ->
  rounds M P tk n h e = Ok (rp_rounds rp, h', e') /\ summarises M (tk_predict tk) (rp_ours rp) (map fst (rp_rounds rp)) /\
  (tk_theirs tk = true -> exists bs d, map snd (rp_rounds rp) = map Some bs /\ rp_theirs rp = Some d /\ summarises M (tk_predict tk) d bs).
Proof.
  intros R N H. unfold compare in H. apply rbind_ok in H. destruct H as [[[l h2] e2] [E H]]. destruct (rounds_chain _ _ _ _ _ _ _ _ _ E) as [L (hs & es & _ & _ & _ & _ & RR)].
  assert (K : rp_rounds rp = l /\ rp_ours rp = side_of M (tk_predict tk) n (map fst l) /\ (tk_theirs tk = true -> rp_theirs rp = Some (side_of M (tk_predict tk) n (somes (map snd l)))) /\ h2 = h' /\ e2 = e').
  { destruct (tk_theirs tk); [destruct (sd_test _); [destruct (sd_test _)|]; try discriminate H|]; apply ok_inv in H; apply pair_equal_spec in H; destruct H as [H <-]; apply pair_equal_spec in H; destruct H as [<- <-]; repeat split; auto; discriminate. }
  destruct K as (-> & -> & K & -> & ->). split; auto. split; [apply side_summarises; auto; now rewrite map_length|]. intros T. rewrite (K T).
  assert (B : exists bs, map snd l = map Some bs).
  { clear E H K. assert (A : forall x, In x l -> exists b, snd x = Some b) by (intros [a b] I1; destruct (In_nth_error _ _ I1) as [i Q]; cbn; eapply round_two; [exact T|apply (RR _ _ _ Q)]). clear -A.
    induction l as [|[a b] l IH]; [now exists []|]. destruct IH as [bs B]; [intros x X; apply A; now right|]. destruct (A (a, b) (or_introl eq_refl)) as [b0 B0]. cbn in B0. subst b. exists (b0 :: bs). cbn. now rewrite B. }
  destruct B as [bs B]. exists bs, (side_of M (tk_predict tk) n (somes (map snd l))). split; auto. split; auto. rewrite B. rewrite (somes_map (fun x => x)), map_id. apply side_summarises; auto. apply (f_equal (@length _)) in B. rewrite !map_length in B. lia.
Qed.
(** The second model's numbers, and the rule of the overlap flag. *)
Theorem overlap_rule M P tk n h e rp h' e' os ts : root M -> 1 <= n -> tk_theirs tk = true -> compare M P tk n h e = Ok (rp, h', e') ->
  map (fun ab => en_test (fst ab)) (rp_rounds rp) = map (fun q => Some (Fin q)) os -> map (fun ab => option_map en_test (snd ab)) (rp_rounds rp) = map (fun q => Some (Some (Fin q))) ts ->
  option_map sd_test (rp_theirs rp) = Some (Some (summary M ts)) /\
  exists b, rp_overlap rp = Some b /\ (b = true <-> (mean ts - mean os < std_error M ts + std_error M os)%Qc /\ (mean os - mean ts < std_error M ts + std_error M os)%Qc).
Proof.
  intros R N TH H QO QT. unfold compare in H. apply rbind_ok in H. destruct H as [[[l h2] e2] [E H]]. destruct (rounds_chain _ _ _ _ _ _ _ _ _ E) as [L _]. cbv zeta in H. rewrite TH in H. unfold side_of in H. cbn [sd_test] in H. destruct (tk_predict tk); [|discriminate H].
  apply ok_inv in H. apply pair_equal_spec in H. destruct H as [H _]. apply pair_equal_spec in H. destruct H as [<- _]. cbn [rp_overlap rp_rounds rp_theirs option_map sd_test] in *.
  assert (SO : somes (map en_test (map fst l)) = map Fin os) by (rewrite map_map, QO; apply somes_map).
  assert (ST : somes (map en_test (somes (map snd l))) = map Fin ts).
  { clear E L SO QO. revert ts QT. induction l as [|[a b] l IH]; intros [|q ts] QT; try discriminate QT; cbn in *; auto. injection QT as Q1 Q2. destruct b as [b|]; [|discriminate Q1]. cbn in Q1. injection Q1 as Q1. cbn. rewrite Q1. f_equal. now apply IH. }
  rewrite SO, ST. assert (LO : length os = n) by (apply (f_equal (@length _)) in QO; rewrite !map_length in QO; lia). assert (LT : length ts = n) by (apply (f_equal (@length _)) in QT; rewrite !map_length in QT; lia).
  rewrite !stat_finite by auto. split; auto. eexists. split; [reflexivity|]. unfold overlap_of, summary. cbn [st_avg st_std xsub xadd xopp xabs]. set (d := (mean ts + - mean os)%Qc). set (s := (std_error M ts + std_error M os)%Qc).
  change (mean ts - mean os)%Qc with d. assert (D' : (mean os - mean ts = - d)%Qc) by (unfold d; ring). rewrite D'. destruct (qlt d 0) eqn:Q; cbn [xlt].
  - apply qlt_spec in Q. rewrite qlt_spec. split; [intros A; split; auto; qlra|tauto].
  - apply qlt_false in Q. rewrite qlt_spec. split; [intros A; split; auto; qlra|tauto].
Qed.

(** Proofs about load_housing and the log analysis. *)
From Coq Require Import List Arith Bool ZArith QArith Qcanon Lia Permutation.
From Verif Require Import Base Num NumFacts ListFacts Rng DrawFacts Utils Spec HeartThms Logs LogsSpec.
Import ListNotations.
Local Open Scope nat_scope.

Lemma choice_all m t : exists l t', choice_norepl (arange m) m t = Ok (l, t') /\ Permutation l (seq 0 m).
Proof.
  unfold choice_norepl. unfold arange at 1. rewrite seq_length, Nat.ltb_irrefl. destruct (pick_k m (arange m) t) as [l t'] eqn:E. exists l, t'. split; auto.
  assert (Q : choice_norepl (arange m) m t = Ok (l, t')) by (unfold choice_norepl; unfold arange at 1; rewrite seq_length, Nat.ltb_irrefl, E; reflexivity).
  apply choice_norepl_spec in Q. destruct Q as [ND [IN [LEN _]]]. apply NoDup_Permutation_bis; auto.
  - rewrite seq_length. lia.
  - intros i Hi. apply in_seq. specialize (IN i Hi). lia.
Qed.
Lemma combine_firstn_skipn {A B} k (l : list A) (r : list B) : combine (firstn k l) (firstn k r) ++ combine (skipn k l) (skipn k r) = combine l r.
Proof. revert l r. induction k as [|k IH]; intros [|a l] [|b r]; cbn; auto; [destruct (skipn k l); reflexivity|]. now rewrite IH. Qed.

Lemma housing_ok cut g data targets : length data = length targets ->
  exists trX trY teX teY, load_housing cut g data targets = Ok (trX, trY, teX, teY) /\
    length trX = length trY /\ length teX = length teY /\ length trX = Nat.min cut (length data) /\
    Permutation (combine trX trY ++ combine teX teY) (combine data targets).
Proof.
  intros L. destruct (choice_all (length data) g) as [is [g' [E P]]].
  assert (IN : forall i, In i is -> i < length data) by (intros i Hi; eapply Permutation_in in Hi; [|exact P]; apply in_seq in Hi; lia).
  assert (T : forall {A} (l : list A), length l = length data -> exists m, mapM (nth_res l) is = Ok m).
  { intros A l Hl. apply mapM_total. intros i Hi. apply nth_res_lt. rewrite Hl. auto. }
  destruct (T _ data eq_refl) as [d Ed]. destruct (T _ targets (eq_sym L)) as [t Et].
  destruct (pick_pairs data targets is d t L Ed Et) as [Q [Q1 Q2]]. assert (LI : length is = length data) by (apply Permutation_length in P; rewrite seq_length in P; exact P).
  exists (firstn cut d), (firstn cut t), (skipn cut d), (skipn cut t). unfold load_housing. rewrite E. cbn [rbind fst]. rewrite Ed. cbn [rbind]. rewrite Et. cbn [rbind].
  split; [reflexivity|]. rewrite !firstn_length, !skipn_length. split; [lia|]. split; [lia|]. split; [lia|]. rewrite combine_firstn_skipn.
  destruct (mapM_perm_of _ _ _ P _ Q) as [m [Pm Em]]. rewrite Pm.
  assert (LC : length data = length (combine data targets)) by (rewrite combine_length; lia). rewrite LC, mapM_seq_id in Em. injection Em as ->. reflexivity.
Qed.

(** The log. *)
Lemma log_skip log : forall s, foldM log_step s log = foldM log_step s (filter counts_of log).
Proof. induction log as [|[n|n|] log IH]; intros s; cbn [filter counts_of foldM log_step rbind]; auto. destruct (log_step s (LCount n)) eqn:E; cbn in E |- *; rewrite E; cbn; auto. Qed.

Definition st (rows : list (list Z)) (sizes : list Z) (i j : nat) : logstate := {| ls_rows := rows; ls_sizes := sizes; ls_size := i; ls_rc := j |}.
Lemma log_counts cols sizes don rest : forall more cs, length cs + length more <= cols ->
  foldM log_step (st (don ++ padded cols cs :: rest) sizes (length don) (length cs)) (map LCount more)
    = Ok (st (don ++ padded cols (cs ++ more) :: rest) sizes (length don) (length (cs ++ more))).
Proof.
  induction more as [|n more IH]; intros cs L; [cbn; now rewrite app_nil_r|]. cbn [length] in L. cbn [map foldM log_step st ls_rows ls_size ls_rc ls_sizes].
  rewrite nth_app. cbn [rbind]. assert (LP : length (padded cols cs) = cols) by (unfold padded; rewrite app_length, repeat_length; lia).
  rewrite LP, guard_true by (apply Nat.ltb_lt; lia). cbn [rbind]. rewrite set_nth_app.
  assert (E : set_nth (length cs) n (padded cols cs) = padded cols (cs ++ [n])).
  { unfold padded. rewrite app_length. cbn [length]. replace (cols - length cs) with (S (cols - (length cs + 1))) by lia. cbn [repeat]. rewrite set_nth_app, <- app_assoc. reflexivity. }
  rewrite E. specialize (IH (cs ++ [n])). rewrite app_length in IH at 1 2. cbn [length] in IH. rewrite <- app_assoc in IH. cbn [app] in IH.
  replace (S (length cs)) with (length cs + 1) by lia. apply IH. lia.
Qed.
Lemma log_blocks cols : forall blocks don sizes k, (forall b, In b blocks -> length (fst b) <= cols) -> length blocks <= k ->
  foldM log_step (st (don ++ repeat (repeat 0%Z cols) k) sizes (length don) 0) (log_of blocks)
    = Ok (st (don ++ map (fun b => padded cols (fst b)) blocks ++ repeat (repeat 0%Z cols) (k - length blocks)) (sizes ++ map snd blocks) (length don + length blocks) 0).
Proof.
  induction blocks as [|[cs n] blocks IH]; intros don sizes k LE LK; cbn [length] in *.
  - unfold log_of. cbn. rewrite app_nil_r, Nat.sub_0_r, Nat.add_0_r. reflexivity.
  - destruct k as [|k]; [lia|]. unfold log_of. cbn [map concat fst snd]. rewrite <- app_assoc, foldM_app. cbn [repeat].
    replace (repeat 0%Z cols) with (padded cols []) at 1 by (unfold padded; cbn; now rewrite Nat.sub_0_r).
    pose proof (log_counts cols sizes don (repeat (repeat 0%Z cols) k) cs [] ltac:(cbn; apply (LE (cs, n)); now left)) as C. cbn [length app] in C. rewrite C. cbn [rbind app foldM log_step st ls_rows ls_sizes ls_size ls_rc].
    specialize (IH (don ++ [padded cols cs]) (sizes ++ [n]) k). rewrite app_length, <- !app_assoc in IH. cbn [length app] in IH. fold (log_of blocks). unfold st in *.
    replace (S (length don)) with (length don + 1) by lia. rewrite IH; [|intros b Hb; apply LE; now right|lia]. f_equal. f_equal; lia || reflexivity.
Qed.
Lemma padded_average cols l : qsum (map Zq (padded cols l)) = qsum (map Zq l).
Proof.
  unfold padded. rewrite map_app, qsum_app. assert (Z : forall k, qsum (map Zq (repeat 0%Z k)) = 0%Qc) by (induction k; cbn; auto; rewrite IHk; reflexivity). rewrite Z. ring.
Qed.
Lemma analyze_ok rows cols log blocks : 0 < cols -> written log blocks -> length blocks <= rows -> (forall b, In b blocks -> length (fst b) <= cols) ->
  exists table means, analyze_log rows cols log = Ok (table, map snd blocks, means) /\
    table = map (fun b => padded cols (fst b)) blocks ++ repeat (repeat 0%Z cols) (rows - length blocks) /\
    length means = rows /\ forall i b, nth_error blocks i = Some b -> nth_error means i = Some (Fin (average cols (fst b))).
Proof.
  intros PC W LR LE. unfold analyze_log. rewrite log_skip, W. pose proof (log_blocks cols blocks [] [] rows LE LR) as B. cbn [app length] in B. unfold st in B. rewrite B. cbn [rbind ls_rows ls_sizes].
  do 2 eexists. split; [reflexivity|]. split; [reflexivity|]. split; [rewrite map_length, app_length, map_length, repeat_length; lia|].
  intros i b E. rewrite map_app, map_map. rewrite nth_error_app1 by (rewrite map_length; apply nth_error_Some; congruence).
  rewrite (map_nth_error _ _ _ E). rewrite padded_average. cbn [xdiv]. rewrite (proj2 (qeq_false _ _) (Nq_neq0 _ PC)). reflexivity.
Qed.
Lemma analyze_overflow rows cols log b blocks more : written log (b ++ [(blocks, more)]) -> length b < rows -> (forall x, In x b -> length (fst x) <= cols) -> cols < length blocks -> analyze_log rows cols log = Err IndexError.
Proof.
  intros W LR LE LO. unfold analyze_log. rewrite log_skip, W. unfold log_of. rewrite map_app, concat_app, foldM_app. fold (log_of b).
  pose proof (log_blocks cols b [] [] rows LE ltac:(lia)) as B. cbn [app length] in B. unfold st in B. rewrite B. cbn [rbind map concat fst snd]. rewrite app_nil_r, foldM_app.
  replace (rows - length b) with (S (rows - length b - 1)) by lia. cbn [repeat Nat.add].
  rewrite <- (firstn_skipn cols blocks), map_app, foldM_app.
  set (don := map (fun b0 => padded cols (fst b0)) b). replace (length b) with (length don) by (unfold don; apply map_length).
  replace (repeat 0%Z cols) with (padded cols []) at 1 by (unfold padded; cbn; now rewrite Nat.sub_0_r).
  pose proof (log_counts cols ([] ++ map snd b) don (repeat (repeat 0%Z cols) (rows - length b - 1)) (firstn cols blocks) []) as C. cbn [length app] in C. rewrite firstn_length in C.
  assert (LD : length don = length b) by apply map_length. rewrite LD in *. unfold st in C. rewrite C by lia. cbn [rbind].
  assert (LS : length (skipn cols blocks) <> 0) by (rewrite skipn_length; lia). destruct (skipn cols blocks) as [|n r]; [easy|]. cbn [map foldM log_step ls_rows ls_size ls_rc].
  rewrite <- LD, nth_app. cbn [rbind]. unfold guard. destruct (Nat.ltb_spec (Nat.min cols (length blocks)) (length (padded cols (firstn cols blocks)))) as [H|H]; [|reflexivity].
  unfold padded in H. rewrite app_length, repeat_length, firstn_length in H. lia.
Qed.
Lemma average_mean cols l : 0 < cols -> 0 < length l ->
  (average cols l = average (length l) l <-> length l = cols \/ total (map (fun z => Q2Qc (inject_Z z)) l) = 0%Qc).
Proof.
  intros PC PL. unfold average. change rat with Nq. set (T := total _). pose proof (Nq_neq0 _ PC) as NC. pose proof (Nq_neq0 _ PL) as NL. split.
  - intros E. destruct (Qc_eq_dec T 0) as [Z|Z]; [now right|left]. apply Nq_inj.
    assert (Q : (T * Nq (length l) = T * Nq cols)%Qc).
    { transitivity (T / Nq cols * Nq cols * Nq (length l))%Qc; [now rewrite qdiv_mult|]. rewrite E. transitivity (T / Nq (length l) * Nq (length l) * Nq cols)%Qc; [ring|]. now rewrite qdiv_mult. }
    assert (D : (T * (Nq (length l) - Nq cols) = 0)%Qc) by (transitivity (T * Nq (length l) - T * Nq cols)%Qc; [ring|rewrite Q; ring]).
    apply Qcmult_integral in D. destruct D as [D|D]; [congruence|]. revert D. generalize (Nq (length l)) (Nq cols). intros a b D. replace a with ((a - b) + b)%Qc by ring. rewrite D. ring.
  - intros [->|Z]; [reflexivity|]. rewrite Z. unfold Qcdiv. ring.
Qed.

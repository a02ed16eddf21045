(** Proofs about the heart experiment. *)
From Coq Require Import List Arith Bool ZArith QArith Qcanon Lia Permutation Sorted.
From Verif Require Import Base Num NumFacts ListFacts HistFacts HistAdd Rng DrawFacts Utils Spec Heart HeartSpec.
Import ListNotations.
Local Open Scope nat_scope.

Lemma cname_eqb_eq a b : cname_eqb a b = true <-> a = b.
Proof.
  destruct a as [n|v], b as [m|w]; cbn; try (split; congruence).
  - rewrite Nat.eqb_eq. split; congruence.
  - rewrite qeq_spec. split; congruence.
Qed.
Lemma cname_eqb_refl a : cname_eqb a a = true.
Proof. now apply cname_eqb_eq. Qed.
Lemma cname_eqb_neq a b : a <> b -> cname_eqb a b = false.
Proof. intros H. destruct (cname_eqb a b) eqn:E; auto. apply cname_eqb_eq in E. congruence. Qed.

Lemma index_of_app c A B : ~ In c A -> index_of c (A ++ c :: B) = Ok (length A).
Proof.
  induction A as [|a A IH]; intros H; cbn.
  - now rewrite cname_eqb_refl.
  - rewrite cname_eqb_neq by (intros ->; apply H; now left). rewrite IH by (intros ?; apply H; now right). reflexivity.
Qed.
Lemma index_of_none c l : ~ In c l -> index_of c l = Err ValueError.
Proof.
  induction l as [|a l IH]; intros H; cbn; auto. rewrite cname_eqb_neq by (intros ->; apply H; now left).
  rewrite IH by (intros ?; apply H; now right). reflexivity.
Qed.
Lemma column_in df c v : NoDup (map fst df) -> In (c, v) df -> column df c = Ok v.
Proof.
  induction df as [|[b u] df IH]; cbn; intros ND H; [easy|]. inversion ND; subst. destruct H as [H|H].
  - injection H as -> ->. now rewrite cname_eqb_refl.
  - rewrite cname_eqb_neq; auto. intros ->. apply H2. apply in_map_iff. now exists (b, v).
Qed.
Lemma select_in df sel : NoDup (map fst df) -> incl sel df -> select df (map fst sel) = Ok sel.
Proof.
  intros ND. unfold select. induction sel as [|[c v] sel IH]; intros H; cbn; auto.
  rewrite (column_in df c v) by (auto; apply H; now left). cbn. rewrite IH by (intros ? ?; apply H; now right). reflexivity.
Qed.
Lemma set_nth_app {A} (l : list A) x y r : set_nth (length l) y (l ++ x :: r) = l ++ y :: r.
Proof. induction l as [|a l IH]; cbn; auto. now rewrite IH. Qed.
Lemma nth_app {A} (l : list A) x r : nth_res (l ++ x :: r) (length l) = Ok x.
Proof. apply nth_res_ok. rewrite nth_error_app2 by lia. now rewrite Nat.sub_diag. Qed.

Lemma swap_last A B race rv lc : NoDup (map fst (A ++ (race, rv) :: B ++ [lc])) ->
  swap_columns (A ++ (race, rv) :: B ++ [lc]) race (fst lc) = Ok (A ++ lc :: B ++ [(race, rv)]).
Proof.
  intros ND. unfold swap_columns. set (df := A ++ (race, rv) :: B ++ [lc]) in *.
  assert (EM : map fst df = map fst A ++ race :: map fst B ++ [fst lc]) by (unfold df; rewrite map_app; cbn; now rewrite map_app).
  assert (EM' : map fst df = (map fst A ++ race :: map fst B) ++ fst lc :: []) by (rewrite EM, <- app_assoc; reflexivity).
  assert (NR : ~ In race (map fst A)). { rewrite EM in ND. apply NoDup_remove_2 in ND. intros H. apply ND. apply in_or_app. now left. }
  assert (NL : ~ In (fst lc) (map fst A ++ race :: map fst B)). { rewrite EM' in ND. apply NoDup_remove_2 in ND. intros H. apply ND. apply in_or_app. now left. }
  rewrite EM at 1. rewrite index_of_app by exact NR. cbn [rbind]. rewrite EM' at 1. rewrite index_of_app by exact NL. cbn [rbind].
  rewrite EM at 1. rewrite nth_app. cbn [rbind]. rewrite EM' at 1. rewrite nth_app. cbn [rbind].
  rewrite EM' at 1. rewrite set_nth_app, <- app_assoc. cbn [app]. rewrite set_nth_app.
  replace (map fst A ++ fst lc :: map fst B ++ [race]) with (map fst (A ++ lc :: B ++ [(race, rv)])) by (rewrite map_app; cbn; now rewrite map_app).
  apply select_in; auto. unfold df. intros x H. apply in_app_or in H. apply in_or_app. destruct H as [H|[H|H]]; auto; right.
  - right. apply in_or_app. right. now left.
  - apply in_app_or in H. destruct H as [H|[H|[]]]; [right; apply in_or_app; now left|now left].
Qed.
Lemma swap_self A race rv : NoDup (map fst (A ++ [(race, rv)])) -> swap_columns (A ++ [(race, rv)]) race race = Ok (A ++ [(race, rv)]).
Proof.
  intros ND. unfold swap_columns. set (df := A ++ [(race, rv)]) in *.
  assert (EM : map fst df = map fst A ++ race :: []) by (unfold df; now rewrite map_app).
  assert (NR : ~ In race (map fst A)). { rewrite EM in ND. apply NoDup_remove_2 in ND. now rewrite app_nil_r in ND. }
  rewrite EM. rewrite index_of_app by exact NR. cbn [rbind]. rewrite nth_app. cbn [rbind].
  rewrite !set_nth_app, <- EM. apply select_in; auto. apply incl_refl.
Qed.

(** Label encoding. *)
Lemma below_sorted l : StronglySorted Qclt l -> forall i x, nth_error l i = Some x ->
  length (filter (fun y => if Qclt_le_dec y x then true else false) l) = i.
Proof.
  induction 1 as [|a l S IH F]; intros i x E; [destruct i; discriminate|]. destruct i as [|i]; cbn in E.
  - injection E as ->. cbn. destruct (Qclt_le_dec x x) as [H|_]; [exfalso; apply (Qclt_not_eq _ _ H); reflexivity|].
    assert (Q : filter (fun y => if Qclt_le_dec y x then true else false) l = []); [|now rewrite Q].
    clear - F. induction F as [|b l H F IH]; cbn; auto. destruct (Qclt_le_dec b x) as [G|_]; auto.
    exfalso. apply (Qclt_not_le _ _ G). now apply Qclt_le_weak.
  - cbn. rewrite Forall_forall in F. specialize (F x (nth_error_In _ _ E)).
    destruct (Qclt_le_dec a x) as [_|G]; [|exfalso; now apply (Qclt_not_le _ _ F)]. cbn. f_equal. now apply IH.
Qed.
Lemma filter_perm {A} (f : A -> bool) l l' : Permutation l l' -> length (filter f l) = length (filter f l').
Proof. induction 1; cbn; auto; try (destruct (f x); cbn; auto); [destruct (f y); cbn; auto|congruence]. Qed.
Lemma unique_perm_nodup v : Permutation (unique v) (nodup Qc_eq_dec v).
Proof. apply NoDup_Permutation; [apply unique_nodup|apply NoDup_nodup|]. intros x. rewrite unique_in, nodup_In. tauto. Qed.
Lemma rank_index v x : In x v -> qindex x (unique v) = Some (rank_in v x).
Proof.
  intros H. destruct (qindex_in x (unique v)) as [i E]; [now apply unique_in|]. rewrite E. f_equal. apply qindex_spec in E.
  unfold rank_in. rewrite <- (filter_perm _ _ _ (unique_perm_nodup v)). symmetry. apply below_sorted; auto. apply unique_sorted.
Qed.
Lemma encode_ok c v : v <> [] -> encode (c, v) = Ok (c, map (fun x => rat (rank_in v x)) v).
Proof.
  intros H. unfold encode. cbn [fst snd]. rewrite guard_true by (destruct v; [easy|reflexivity]). cbn [rbind].
  assert (E : mapM (fun x => do i <- opt_res (qindex x (unique v)) KeyError; Ok (Nq i)) v = Ok (map (fun x => rat (rank_in v x)) v)).
  { apply mapM_pure. intros x Hx. rewrite (rank_index v x Hx). reflexivity. }
  rewrite E. reflexivity.
Qed.
Lemma map_coded v : coded v (map (fun x => rat (rank_in v x)) v).
Proof. split; [apply map_length|]. intros i x E. now rewrite (map_nth_error _ _ _ E). Qed.
Lemma rank_le v x y : (x <= y)%Qc -> rank_in v x <= rank_in v y.
Proof.
  intros L. unfold rank_in. induction (nodup Qc_eq_dec v) as [|a l IH]; cbn; auto.
  destruct (Qclt_le_dec a x) as [A|A], (Qclt_le_dec a y) as [B|B]; cbn; try lia.
  exfalso. apply (Qclt_not_le _ _ A). eapply Qcle_trans; eauto.
Qed.
Lemma rank_lt v x y : In x v -> (x < y)%Qc -> rank_in v x < rank_in v y.
Proof.
  intros H L. assert (G : In x (nodup Qc_eq_dec v)) by now apply nodup_In.
  unfold rank_in. induction (nodup Qc_eq_dec v) as [|a l IH]; [easy|]. cbn.
  assert (W : length (filter (fun z => if Qclt_le_dec z x then true else false) l) <= length (filter (fun z => if Qclt_le_dec z y then true else false) l)).
  { clear - L. induction l as [|b l IH]; cbn; auto. destruct (Qclt_le_dec b x) as [A|A], (Qclt_le_dec b y) as [B|B]; cbn; try lia.
    exfalso. apply (Qclt_not_le _ _ A). eapply Qcle_trans; [|exact B]. now apply Qclt_le_weak. }
  destruct (Qclt_le_dec a x) as [A|A], (Qclt_le_dec a y) as [B|B]; cbn; try lia.
  - destruct G as [->|G]; [exfalso; apply (Qclt_not_eq _ _ A); reflexivity|]. specialize (IH G). lia.
  - exfalso. apply (Qclt_not_le _ _ A). apply Qclt_le_weak. eapply Qclt_le_trans; eauto.
  - destruct G as [->|G]; [exfalso; now apply (Qclt_not_le _ _ L)|]. specialize (IH G). lia.
Qed.
Lemma coded_sense v w : coded v w -> same_sense v w.
Proof.
  intros [_ C] i j x y a b Ei Ej Ea Eb. rewrite (C _ _ Ei) in Ea. rewrite (C _ _ Ej) in Eb. injection Ea as <-. injection Eb as <-.
  change (rat (rank_in v x)) with (Nq (rank_in v x)). change (rat (rank_in v y)) with (Nq (rank_in v y)). rewrite <- Nq_lt. split; intros H.
  - destruct (Qclt_le_dec x y) as [L|L]; auto. apply (rank_le v) in L. lia.
  - apply rank_lt; auto. eapply nth_error_In; eauto.
Qed.

(** One-hot columns. *)
Lemma dummies_in v u w : In (Dummy u, w) (get_dummies v) -> In u v /\ indicator u v w.
Proof.
  unfold get_dummies. intros H. apply in_map_iff in H. destruct H as [u' [E H]]. injection E as -> <-. split; [now apply unique_in|].
  split; [apply map_length|]. intros i x E. split; intros D; rewrite (map_nth_error _ _ _ E).
  - subst. now rewrite qeq_refl.
  - apply qeq_false in D. now rewrite D.
Qed.
Lemma dummies_has v u : In u v -> exists w, In (Dummy u, w) (get_dummies v).
Proof. intros H. eexists. unfold get_dummies. apply in_map_iff. exists u. split; [reflexivity|now apply unique_in]. Qed.
Lemma dummies_names v : map fst (get_dummies v) = map Dummy (unique v).
Proof. unfold get_dummies. rewrite map_map. reflexivity. Qed.

Lemma column_app df c v df' : ~ In c (map fst df) -> column (df ++ (c, v) :: df') c = Ok v.
Proof.
  induction df as [|[b u] df IH]; cbn; intros H; [now rewrite cname_eqb_refl|].
  rewrite cname_eqb_neq by (intros ->; apply H; now left). apply IH. tauto.
Qed.
Lemma drop_absent c (df : frame) : ~ In c (map fst df) -> filter (fun cv => negb (cname_eqb c (fst cv))) df = df.
Proof.
  induction df as [|[b u] df IH]; cbn; intros H; auto. rewrite cname_eqb_neq by (intros ->; apply H; now left). cbn. rewrite IH by tauto. reflexivity.
Qed.

Definition code (cv : cname * list Qc) : cname * list Qc := (fst cv, map (fun x => rat (rank_in (snd cv) x)) (snd cv)).

Lemma preprocess_from race df df1 L rv lc c0 :
  nth_res (rev df) 0 = Ok lc -> swap_columns df race (fst lc) = Ok df1 -> df1 = (c0 :: L) ++ [(race, rv)] ->
  ~ In race (map fst (c0 :: L)) -> (forall c v, In (c, v) (c0 :: L) -> v <> []) ->
  preprocess race df = Ok ((map code L ++ get_dummies rv) ++ [code c0]).
Proof.
  intros EL ES -> NR NE. unfold preprocess. rewrite EL. cbn [rbind]. rewrite ES. cbn [rbind].
  rewrite removelast_last.
  assert (EB : mapM encode (c0 :: L) = Ok (map code (c0 :: L))). { apply mapM_pure. intros [c v] H. apply encode_ok. eapply NE; eauto. }
  rewrite EB. cbn [rbind].
  replace (skipn (length ((c0 :: L) ++ [(race, rv)]) - 1) ((c0 :: L) ++ [(race, rv)])) with [(race, rv)].
  2:{ rewrite app_length. cbn [length]. replace (S (length L) + 1 - 1) with (length (c0 :: L)) by (cbn; lia). rewrite skipn_app, skipn_all, Nat.sub_diag. reflexivity. }
  assert (NC : ~ In race (map fst (map code (c0 :: L)))) by (rewrite map_map; exact NR).
  rewrite column_app by exact NC. cbn [rbind]. rewrite filter_app, drop_absent by exact NC. cbn [filter fst]. rewrite cname_eqb_refl. cbn [negb].
  rewrite app_nil_r. reflexivity.
Qed.

Lemma nodup_app {A} (a b : list A) : NoDup a -> NoDup b -> (forall x, In x a -> ~ In x b) -> NoDup (a ++ b).
Proof.
  induction a as [|x a IH]; cbn; intros Ha Hb D; auto. inversion Ha; subst. constructor.
  - intros H. apply in_app_or in H. destruct H; [auto|]. apply (D x); auto.
  - apply IH; auto.
Qed.

Lemma preprocess_ok race df n lbl lv rv : frame_ok df n -> 0 < n -> In (race, rv) df -> nth_error df 0 = Some (lbl, lv) -> lbl <> race ->
  exists out w, preprocess race df = Ok (out ++ [(lbl, w)]) /\ coded lv w /\ same_sense lv w /\ NoDup (map fst (out ++ [(lbl, w)])) /\
    (forall c v, In (c, v) df -> c <> race -> exists w', In (c, w') (out ++ [(lbl, w)]) /\ coded v w' /\ same_sense v w') /\
    (forall u, In u rv -> exists w', In (Dummy u, w') (out ++ [(lbl, w)]) /\ indicator u rv w') /\
    (forall c w', In (c, w') (out ++ [(lbl, w)]) -> c <> race /\ In c (map fst df) \/ exists u, c = Dummy u /\ In u rv).
Proof.
  intros [ND [LEN DUM]] Pn HR H0 NL.
  assert (G : exists L lc, nth_res (rev df) 0 = Ok lc /\ swap_columns df race (fst lc) = Ok (((lbl, lv) :: L) ++ [(race, rv)]) /\ Permutation (((lbl, lv) :: L) ++ [(race, rv)]) df).
  { destruct (in_split _ _ HR) as [A [B E]]. destruct A as [|a A]; [subst df; cbn in H0; congruence|].
    assert (a = (lbl, lv)) by (subst df; cbn in H0; congruence). subst a.
    destruct B as [|b B] using rev_ind.
    - exists A, (race, rv). subst df. split; [|split].
      + rewrite rev_app_distr. reflexivity.
      + apply swap_self. exact ND.
      + reflexivity.
    - clear IHB. exists (A ++ b :: B), b. subst df. split; [|split].
      + change (((lbl, lv) :: A) ++ (race, rv) :: B ++ [b]) with (((lbl, lv) :: A) ++ ((race, rv) :: B) ++ [b]). rewrite app_assoc, rev_app_distr. reflexivity.
      + rewrite (swap_last ((lbl, lv) :: A) B race rv b) by exact ND. f_equal. cbn. rewrite <- app_assoc. reflexivity.
      + cbn. constructor. rewrite <- app_assoc. apply Permutation_app_head. cbn.
        transitivity (b :: (race, rv) :: B). { constructor. symmetry. apply Permutation_cons_append. }
        transitivity ((race, rv) :: b :: B); [apply perm_swap|]. constructor. apply Permutation_cons_append. }
  destruct G as [L [lc [E1 [E2 P]]]].
  assert (ND1 : NoDup (map fst (((lbl, lv) :: L) ++ [(race, rv)]))). { eapply Permutation_NoDup; [apply Permutation_map; symmetry; exact P|exact ND]. }
  rewrite map_app in ND1. cbn [map fst] in ND1.
  assert (NR : ~ In race (map fst ((lbl, lv) :: L))). { apply NoDup_remove_2 in ND1. now rewrite app_nil_r in ND1. }
  assert (ND2 : NoDup (map fst ((lbl, lv) :: L))). { apply NoDup_remove_1 in ND1. now rewrite app_nil_r in ND1. }
  assert (SUB : forall cv, In cv ((lbl, lv) :: L) -> In cv df) by (intros cv H; eapply Permutation_in; [exact P|]; apply in_or_app; now left).
  exists (map code L ++ get_dummies rv), (snd (code (lbl, lv))).
  rewrite (preprocess_from race df _ L rv lc (lbl, lv) E1 E2 eq_refl NR) by (intros c v H ->; apply SUB in H; apply LEN in H; cbn in H; lia).
  change ((lbl, snd (code (lbl, lv)))) with (code (lbl, lv)).
  assert (PN : Permutation ((map code L ++ get_dummies rv) ++ [code (lbl, lv)]) (map code ((lbl, lv) :: L) ++ get_dummies rv)) by (symmetry; apply Permutation_cons_append).
  split; [reflexivity|]. split; [apply map_coded|]. split; [apply coded_sense, map_coded|]. split.
  { eapply Permutation_NoDup; [apply Permutation_map; symmetry; exact PN|]. rewrite map_app, map_map, dummies_names. apply nodup_app.
    - exact ND2.
    - apply FinFun.Injective_map_NoDup; [intros ? ? H; congruence|apply unique_nodup].
    - intros x H1 H2. apply in_map_iff in H2. destruct H2 as [u [<- _]]. apply in_map_iff in H1. destruct H1 as [[c v] [E H]]. cbn in E. subst c. apply SUB in H. now apply DUM in H. }
  split; [|split].
  - intros c v H NC. exists (map (fun x => rat (rank_in v x)) v). split; [|split; [apply map_coded|apply coded_sense, map_coded]].
    eapply Permutation_in; [symmetry; exact PN|]. apply in_or_app. left. apply in_map_iff. exists (c, v). split; [reflexivity|].
    eapply Permutation_in in H; [|symmetry; exact P]. apply in_app_or in H. destruct H as [H|[H|[]]]; auto. congruence.
  - intros u H. destruct (dummies_has rv u H) as [w' H']. exists w'. split; [|now apply dummies_in in H'].
    eapply Permutation_in; [symmetry; exact PN|]. apply in_or_app. now right.
  - intros c w' H. eapply Permutation_in in H; [|exact PN]. apply in_app_or in H. destruct H as [H|H].
    + left. apply in_map_iff in H. destruct H as [cv [E H]]. assert (fst cv = c) by (unfold code in E; congruence). subst c. split.
      * intros <-. apply NR. now apply in_map.
      * apply in_map. now apply SUB.
    + right. apply (in_map fst) in H. rewrite dummies_names in H. cbn in H. apply in_map_iff in H. destruct H as [u [<- H]]. exists u. split; auto. now apply unique_in.
Qed.
Lemma preprocess_absent race df : df <> [] -> ~ In race (map fst df) -> preprocess race df = Err ValueError.
Proof.
  intros NE H. unfold preprocess. destruct (nth_res_lt (rev df) 0) as [lc E]; [rewrite rev_length; destruct df; [easy|cbn; lia]|].
  rewrite E. cbn [rbind]. unfold swap_columns. rewrite index_of_none by exact H. reflexivity.
Qed.

(** The split into train, validation and test parts. *)
Lemma pick_pairs {A B} (X : list A) (Y : list B) is xs ys : length X = length Y -> mapM (nth_res X) is = Ok xs -> mapM (nth_res Y) is = Ok ys ->
  mapM (nth_res (combine X Y)) is = Ok (combine xs ys) /\ length xs = length ys /\ length xs = length is.
Proof.
  intros L. revert xs ys. induction is as [|i is IH]; cbn; intros xs ys HX HY; [injection HX as <-; injection HY as <-; auto|].
  apply rbind_ok in HX. destruct HX as [x [Ex HX]]. apply rbind_ok in HX. destruct HX as [xs' [EX HX]]. injection HX as <-.
  apply rbind_ok in HY. destruct HY as [y [Ey HY]]. apply rbind_ok in HY. destruct HY as [ys' [EY HY]]. injection HY as <-.
  destruct (IH _ _ EX EY) as [E [E' E'']]. rewrite E.
  assert (Q : nth_res (combine X Y) i = Ok (x, y)).
  { apply nth_res_ok in Ex, Ey. apply nth_res_ok. clear - Ex Ey L. revert Y i L Ex Ey. induction X as [|a X IH]; intros [|b Y] [|i] L Ex Ey; cbn in *; try discriminate; [congruence|]. injection L as L. eauto. }
  rewrite Q. cbn. auto.
Qed.
Lemma mapM_seq_id {A} (l : list A) : mapM (nth_res l) (seq 0 (length l)) = Ok l.
Proof.
  assert (G : forall l p : list A, mapM (nth_res (p ++ l)) (seq (length p) (length l)) = Ok l).
  { induction l0 as [|a l0 IH]; intros p; cbn; auto. rewrite nth_app. cbn. specialize (IH (p ++ [a])). rewrite <- app_assoc, app_length in IH. cbn in IH.
    replace (length p + 1) with (S (length p)) in IH by lia. rewrite IH. reflexivity. }
  apply (G l []).
Qed.
Lemma mapM_perm_of {A B} (g : A -> res B) l l' : Permutation l l' -> forall m, mapM g l = Ok m -> exists m', Permutation m m' /\ mapM g l' = Ok m'.
Proof.
  induction 1 as [|a l l' P IH|a b l|l l' l'' P1 IH1 P2 IH2]; intros m H.
  - exists m. split; [apply Permutation_refl|exact H].
  - cbn in *. apply rbind_ok in H. destruct H as [x [E H]]. apply rbind_ok in H. destruct H as [xs [EX H]]. injection H as <-.
    destruct (IH _ EX) as [m' [Q E']]. exists (x :: m'). split; [now constructor|]. rewrite E, E'. reflexivity.
  - cbn in *. apply rbind_ok in H. destruct H as [x [E H]]. apply rbind_ok in H. destruct H as [xs [EX H]]. injection H as <-.
    apply rbind_ok in EX. destruct EX as [y [E' EX]]. apply rbind_ok in EX. destruct EX as [ys [EY EX]]. injection EX as <-.
    exists (y :: x :: ys). split; [apply perm_swap|]. rewrite E', E, EY. reflexivity.
  - destruct (IH1 _ H) as [m1 [Q1 E1]]. destruct (IH2 _ E1) as [m2 [Q2 E2]]. exists m2. split; auto. eapply Permutation_trans; eauto.
Qed.

Lemma train_test_ok tts X Y q s a b c d : splits tts -> train_test tts X Y q s = Ok (a, b, c, d) ->
  length X = length Y /\ length a = length c /\ length b = length d /\ Permutation (combine a c ++ combine b d) (combine X Y) /\ length c + length d = length Y /\
  (rat (length Y) * q <= rat (length d))%Qc /\ (rat (length d) < rat (length Y) * q + 1)%Qc.
Proof.
  intros S H. unfold train_test in H. apply rbind_ok in H. destruct H as [u [G H]]. apply guard_ok, Nat.eqb_eq in G.
  apply rbind_ok in H. destruct H as [[p1 p2] [ET H]]. cbn [fst snd] in H.
  apply rbind_ok in H. destruct H as [a' [Ea H]]. apply rbind_ok in H. destruct H as [b' [Eb H]]. apply rbind_ok in H. destruct H as [c' [Ec H]]. apply rbind_ok in H. destruct H as [d' [Ed H]].
  injection H as -> -> -> ->. destruct (S _ _ _ _ _ ET) as [P [L1 L2]].
  destruct (pick_pairs X Y p1 a c G Ea Ec) as [Q1 [Q1' Q1'']]. destruct (pick_pairs X Y p2 b d G Eb Ed) as [Q2 [Q2' Q2'']].
  assert (LD : length d = length p2) by congruence. rewrite LD. split; [auto|]. split; [auto|]. split; [congruence|]. split; [|split; [|split; assumption]].
  - assert (E : mapM (nth_res (combine X Y)) (p1 ++ p2) = Ok (combine a c ++ combine b d)) by (rewrite mapM_app, Q1; cbn [rbind]; rewrite Q2; reflexivity).
    destruct (mapM_perm_of _ _ _ P _ E) as [m [Pm Em]]. rewrite Pm. assert (LC : length Y = length (combine X Y)) by (rewrite combine_length; lia). rewrite LC, mapM_seq_id in Em. injection Em as ->. reflexivity.
  - apply Permutation_length in P. rewrite app_length, seq_length in P. lia.
Qed.

Lemma get_subset_ok X Y k g xs ys : get_subset X Y k g = Ok (xs, ys) ->
  length X = length Y /\ length xs = length ys /\
  exists is, NoDup is /\ length is = k /\ (forall i, In i is -> i < length Y) /\ map (nth_error (combine X Y)) is = map Some (combine xs ys).
Proof.
  unfold get_subset. intros H. apply rbind_ok in H. destruct H as [u [_ H]]. apply rbind_ok in H. destruct H as [u' [G H]]. apply guard_ok, Nat.eqb_eq in G.
  apply rbind_ok in H. destruct H as [[is g'] [EC H]]. cbn [fst] in H. apply rbind_ok in H. destruct H as [xs' [EX H]]. apply rbind_ok in H. destruct H as [ys' [EY H]]. injection H as -> ->.
  apply choice_norepl_spec in EC. destruct EC as [ND [IN [LEN _]]]. destruct (pick_pairs X Y is xs ys G EX EY) as [E [E' _]]. split; auto. split; auto.
  exists is. split; [auto|]. split; [auto|]. split; [auto|]. clear - E. revert E. generalize (combine xs ys). induction is as [|i is IH]; cbn; intros l E; [injection E as <-; reflexivity|].
  apply rbind_ok in E. destruct E as [x [Ex E]]. apply rbind_ok in E. destruct E as [l' [El E]]. injection E as <-. cbn. rewrite (proj1 (nth_res_ok _ _ _) Ex). f_equal. auto.
Qed.

Lemma split_parts tts X Y r0 r1 r2 subset seed g p : splits tts -> split_data tts X Y r0 r1 r2 subset seed g = Ok p ->
  exists Xs Ys, length Xs = length Ys /\
    match subset with
    | None => Xs = X /\ Ys = Y
    | Some k => exists is, NoDup is /\ length is = k /\ (forall i, In i is -> i < length Y) /\ map (nth_error (combine X Y)) is = map Some (combine Xs Ys)
    end /\
    aligned (pa_train p) /\ aligned (pa_val p) /\ aligned (pa_test p) /\
    Permutation (paired (pa_train p) ++ paired (pa_val p) ++ paired (pa_test p)) (combine Xs Ys) /\
    ((0 <= r0)%Qc -> (0 <= r1)%Qc -> (0 <= r2)%Qc ->
      let n := rat (length Ys) in let s := (r0 + r1 + r2)%Qc in
      let te := rat (length (snd (pa_test p))) in let va := rat (length (snd (pa_val p))) in
      (n * (r2 / s) <= te)%Qc /\ (te < n * (r2 / s) + 1)%Qc /\ (n * (r1 / s) - 1 < va)%Qc /\ (va < n * (r1 / s) + 1)%Qc).
Proof.
  intros S H. unfold split_data in H. set (s := (r0 + r1 + r2)%Qc) in *. apply rbind_ok in H. destruct H as [u [G H]]. apply guard_ok, negb_true_iff, qeq_false in G.
  apply rbind_ok in H. destruct H as [[Xs Ys] [ES H]]. cbn [fst snd] in H. apply rbind_ok in H. destruct H as [[[[Xtr Xte] Ytr] Yte] [E1 H]].
  apply rbind_ok in H. destruct H as [u' [G' H]]. apply guard_ok, negb_true_iff, qeq_false in G'. apply rbind_ok in H. destruct H as [[[[Xtr' Xva] Ytr'] Yva] [E2 H]]. injection H as <-. cbn.
  destruct (train_test_ok _ _ _ _ _ _ _ _ _ S E1) as [L [A1 [A2 [P1 [N1 [T1 T2]]]]]]. destruct (train_test_ok _ _ _ _ _ _ _ _ _ S E2) as [L' [B1 [B2 [P2 [N2 [V1 V2]]]]]].
  exists Xs, Ys. split; [auto|]. split; [|split; [|split; [|split; [|split]]]]; unfold aligned, paired; cbn; auto.
  - destruct subset as [k|]; [|injection ES as -> ->; auto]. apply get_subset_ok in ES. tauto.
  - rewrite app_assoc, P2. exact P1.
  - intros R0 R1 R2. change rat with Nq in *.
    assert (PS : (0 < s)%Qc). { assert (0 <= s)%Qc as Q by (unfold s; qlra). apply Qcle_lt_or_eq in Q. destruct Q as [Q|Q]; [exact Q|congruence]. }
    assert (W : forall x, (0 <= x)%Qc -> (0 <= x / s)%Qc). { intros x Hx. now apply qdiv_le_0. }
    pose proof (W _ R0) as W0. pose proof (W _ R1) as W1. pose proof (W _ R2) as W2.
    assert (SUM : (r0 / s + r1 / s + r2 / s = 1)%Qc). { unfold s in *. field. exact G. }
    set (q0 := (r0 / s)%Qc) in *. set (q1 := (r1 / s)%Qc) in *. set (q2 := (r2 / s)%Qc) in *. clearbody q0 q1 q2.
    assert (PQ : (0 < q0 + q1)%Qc). { assert (0 <= q0 + q1)%Qc as Q by qlra. apply Qcle_lt_or_eq in Q. destruct Q as [Q|Q]; [exact Q|congruence]. }
    assert (NN : Nq (length Ys) = (Nq (length Ytr) + Nq (length Yte))%Qc) by (rewrite <- Nq_plus; f_equal; lia).
    set (n := Nq (length Ys)) in *. set (m := Nq (length Ytr)) in *. set (te := Nq (length Yte)) in *. set (va := Nq (length Yva)) in *. clearbody n m te va.
    split; [exact T1|]. split; [exact T2|].
    set (k := (q1 / (q0 + q1))%Qc) in *. assert (EK : (k * (q0 + q1) = q1)%Qc) by (unfold k; field; exact G').
    assert (K0 : (0 <= k)%Qc). { unfold k. now apply qdiv_le_0. }
    assert (K1 : (k <= 1)%Qc). { apply Qcnot_lt_le. intros K. assert ((q0 + q1) < k * (q0 + q1))%Qc by qnra. qlra. }
    clearbody k. assert (M1 : (m <= n * (q0 + q1))%Qc). { replace (q0 + q1)%Qc with (1 - q2)%Qc by (rewrite <- SUM; ring). qlra. }
    assert (M2 : (n * (q0 + q1) - 1 < m)%Qc). { replace (q0 + q1)%Qc with (1 - q2)%Qc by (rewrite <- SUM; ring). qlra. }
    assert (Z1 : (m * k <= n * q1)%Qc). { rewrite <- EK. replace (n * (k * (q0 + q1)))%Qc with (n * (q0 + q1) * k)%Qc by ring. now apply Qcmult_le_compat_r. }
    assert (Z2 : (n * q1 - k <= m * k)%Qc). { rewrite <- EK. replace (n * (k * (q0 + q1)) - k)%Qc with ((n * (q0 + q1) - 1) * k)%Qc by ring. apply Qcmult_le_compat_r; auto. now apply Qclt_le_weak. }
    split; [|qlra].
    destruct (Qc_eq_dec k 1) as [->|NK].
    + assert (q0 = 0)%Qc by (rewrite Qcmult_1_l in EK; replace q0 with ((q0 + q1) - q1)%Qc by ring; rewrite EK; ring). subst q0.
      rewrite Qcmult_1_r in *. replace (0 + q1)%Qc with q1 in M2 by ring. qlra.
    + assert (k < 1)%Qc by (apply Qcle_lt_or_eq in K1; tauto). qlra.
Qed.

(** The verdict. *)
Lemma overlap_true z m1 s1 m2 s2 : (0 <= z)%Qc -> (0 <= s1)%Qc -> (0 <= s2)%Qc -> heart_overlap z m1 s1 m2 s2 = true ->
  ~ meet (heart_interval z m1 s1) (heart_interval z m2 s2) /\ (snd (heart_interval z m2 s2) < fst (heart_interval z m1 s1))%Qc.
Proof.
  intros Z S1 S2 H. unfold heart_overlap in H. apply qlt_spec in H. assert (P1 : (0 <= z * s1)%Qc) by qnra. assert (P2 : (0 <= z * s2)%Qc) by qnra.
  unfold heart_interval, meet. cbn. replace (Nq 2) with (1 + 1)%Qc in H by reflexivity.
  assert (Q : (m2 + z * s2 < m1 - z * s1)%Qc) by qlra. split; auto. intros [x [[A B] [C D]]]. qlra.
Qed.

(** When histogram construction, insertion and scoring succeed. *)
From Coq Require Import List Arith Bool ZArith QArith Qcanon Lia Permutation Sorted.
From Verif Require Import Base Num Rng Histogram Utils Criteria Solvers Spec NumFacts ListFacts HistFacts HistAdd CritFacts ReductionFacts MakeHist SampleFacts HistProps HistProps2 ExactFacts.
Import ListNotations.
Local Open Scope nat_scope.

(** What the edges of feature f are. *)
Definition edge_rule (bt : bintype) (B : nat) (mm : option (list Qc * list Qc)) (fd : list Qc) (f : nat) (h : hist) : Prop :=
  match bt with
  | LINEAR => exists a b,
      (match mm with
       | None => list_min fd = Ok a /\ list_max fd = Ok b
       | Some (mn, mx) => nth_error mn f = Some a /\ nth_error mx f = Some b
       end) /\ h_edges h = (if qeq a b then None else Some (linear_bin a b B))
  | IDENTITY => h_edges h = Some (unique fd)
  | RANDOM => exists a b t, list_min fd = Ok a /\ list_max fd = Ok b /\
      h_edges h = Some (fst (random_bin a b B t))
  | _ => True
  end.

Lemma mh_step_rule ic data cl mm dd bt B s f s' :
  mh_step ic data cl mm dd bt B s f = Ok s' ->
  (bt = LINEAR \/ bt = RANDOM -> mh_nb s = B) ->
  (bt = LINEAR \/ bt = RANDOM -> mh_nb s' = B) /\
  exists h fd, mh_hists s' = mh_hists s ++ [h] /\ col data f = Ok fd /\ edge_rule bt B mm fd f h.
Proof.
  intros H NB. unfold mh_step in H.
  apply rbind_ok in H. destruct H as [fd [Ec H]].
  apply rbind_ok in H. destruct H as [[D uf] [Ed H]].
  set (ty := match bt with BAuto => choose_bin_type D (length data) B | _ => bt end) in *.
  apply rbind_ok in H. destruct H as [[[nb mn] mx] [En H]].
  apply rbind_ok in H. destruct H as [[h t'] [Eh H]].
  injection H as <-. cbn [mh_nb mh_hists].
  destruct bt; cbn in ty; subst ty; cbn [edge_rule]; (split; [intros [Q|Q]; try discriminate|]);
    try (exists h, fd; split; [reflexivity|]; split; [assumption|]); auto.
  - destruct mm as [[? ?]|]; inv_ok En; subst; auto.
  - rewrite NB in En by auto.
    destruct mm as [[l1 l2]|]; apply rbind_ok in En; destruct En as [a [E1 En]]; apply rbind_ok in En; destruct En as [b [E2 En]];
      injection En as <- <- <-; exists a, b.
    + split; [now rewrite <- !nth_res_ok|]. cbn in Eh. destruct (qeq a b); injection Eh as <- _; reflexivity.
    + split; [auto|]. cbn in Eh. destruct (qeq a b); injection Eh as <- _; reflexivity.
  - cbn in Eh. injection Eh as <- _. reflexivity.
  - apply rbind_ok in En; destruct En as [a [E1 En]]; apply rbind_ok in En; destruct En as [b [E2 En]].
    injection En as <- <- <-. auto.
  - rewrite NB in En by auto. apply rbind_ok in En; destruct En as [a [E1 En]]; apply rbind_ok in En; destruct En as [b [E2 En]].
    injection En as <- <- <-. exists a, b, (mh_np s). split; auto. split; auto. cbn in Eh.
    destruct (random_bin a b B (mh_np s)) as [e t1]. injection Eh as <- _. reflexivity.
Qed.

Lemma make_histograms_rule ic data labels mm dd bt B np mh r0 :
  make_histograms ic data labels mm dd bt B np = Ok mh -> nth_error data 0 = Some r0 ->
  length (mh_hists mh) = length r0 /\
  forall f h, nth_error (mh_hists mh) f = Some h -> exists fd, col data f = Ok fd /\ edge_rule bt B mm fd f h.
Proof.
  intros H Hr. unfold make_histograms in H. apply rbind_ok in H. destruct H as [r [E H]].
  apply nth_res_ok in E. rewrite Hr in E. injection E as <-.
  set (cl := if ic then unique labels else []) in *.
  assert (K : forall n k s1 s2, length (mh_hists s1) = k -> (bt = LINEAR \/ bt = RANDOM -> mh_nb s1 = B) ->
     (forall f h, nth_error (mh_hists s1) f = Some h -> exists fd, col data f = Ok fd /\ edge_rule bt B mm fd f h) ->
     foldM (mh_step ic data cl mm dd bt B) s1 (seq k n) = Ok s2 ->
     length (mh_hists s2) = k + n /\
     forall f h, nth_error (mh_hists s2) f = Some h -> exists fd, col data f = Ok fd /\ edge_rule bt B mm fd f h).
  { induction n as [|n IH]; intros k s1 s2 L NB I F; cbn in F.
    - injection F as <-. split; auto. lia.
    - apply rbind_ok in F. destruct F as [s3 [E F]].
      destruct (mh_step_rule _ _ _ _ _ _ _ _ _ _ E NB) as [NB3 [h [fd [Eh [Ec R]]]]].
      destruct (IH (S k) s3 s2) as [L2 I2]; auto.
      + rewrite Eh, app_length. cbn. lia.
      + intros f h' N. rewrite Eh in N. destruct (Nat.eq_dec f k) as [->|NE].
        * rewrite nth_error_app2, L, Nat.sub_diag in N by lia. injection N as <-. eauto.
        * apply I. rewrite nth_error_app1 in N; auto.
          assert (f < length (mh_hists s1 ++ [h])) by (apply nth_error_Some; congruence).
          rewrite app_length in H0. cbn in H0. lia.
      + split; auto. lia. }
  apply (K (length r0) 0 _ mh) in H; auto. cbn.
  intros f h N. destruct f; discriminate.
Qed.

(** Construction succeeds. *)
Definition minmax_covers (W : nat) (mm : option (list Qc * list Qc)) : Prop :=
  match mm with None => True | Some (mn, mx) => W <= length mn /\ W <= length mx end.
Definition dd_readable (W : nat) (dd : option ddict) : Prop :=
  match dd with None => True | Some d => forall f, f < W -> exists v, dd_get d f = Ok v end.

Lemma list_min_total l : l <> [] -> exists a, list_min l = Ok a.
Proof. destruct l; [contradiction|]. cbn. eauto. Qed.
Lemma list_max_total l : l <> [] -> exists a, list_max l = Ok a.
Proof. destruct l; [contradiction|]. cbn. eauto. Qed.

Lemma make_histograms_total ic data labels mm dd bt B np W :
  rectangular W data -> data <> [] -> minmax_covers W mm -> dd_readable W dd ->
  bt = LINEAR \/ bt = IDENTITY \/ bt = RANDOM ->
  exists mh, make_histograms ic data labels mm dd bt B np = Ok mh.
Proof.
  intros R NE MM DD BT. unfold make_histograms.
  destruct data as [|r0 data']; [contradiction|]. cbn [nth_res nth_error rbind]. set (data := r0 :: data') in *.
  assert (L0 : length r0 = W) by (apply R; now left). rewrite L0.
  destruct (foldM_total (mh_step ic data (if ic then unique labels else []) mm dd bt B) (fun _ => True)
     {| mh_nb := B; mh_np := np; mh_hists := []; mh_not := []; mh_cons := [] |} (seq 0 W)) as [s [E _]]; eauto.
  intros f s I _. apply in_seq in I. destruct I as [_ Hf]. cbn in Hf.
  destruct (col_total data f W R Hf) as [fd Ec]. unfold mh_step. rewrite Ec. cbn [rbind].
  assert (NF : fd <> []). { apply col_ok in Ec. subst. discriminate. }
  assert (ED : exists D uf, match dd with
           | None => Ok (None, None)
           | Some d =>
               do v <- dd_get d f;
               if length (dval_list v) =? 0 then Ok (None, None)
               else Ok (Some (length (dval_list v)), Some v)
           end = Ok (D : option nat, uf : option dval)).
  { destruct dd as [d|]; [|eauto]. destruct (DD f Hf) as [v Ev]. rewrite Ev. cbn.
    destruct (length (dval_list v) =? 0); eauto. }
  destruct ED as [D [uf ED]]. rewrite ED. cbn [rbind].
  destruct (list_min_total fd NF) as [a Ea], (list_max_total fd NF) as [b Eb].
  destruct BT as [->|[->| ->]].
  - assert (EN : exists nb mn mx, match mm with
         | None => do a <- list_min fd; do b <- list_max fd; Ok (mh_nb s, a, b)
         | Some (mn, mx) => do a <- nth_res mn f; do b <- nth_res mx f; Ok (mh_nb s, a, b)
         end = Ok (nb, mn, mx)).
    { destruct mm as [[mn mx]|].
      - destruct MM. destruct (nth_res_lt mn f) as [x E1]; [lia|]. destruct (nth_res_lt mx f) as [y E2]; [lia|].
        rewrite E1, E2. cbn. eauto.
      - rewrite Ea, Eb. cbn. eauto. }
    destruct EN as [nb [mn [mx EN]]]. rewrite EN. cbn [rbind new_hist].
    destruct (qeq mn mx); cbn; eauto.
  - cbn. eauto.
  - rewrite Ea, Eb. cbn [rbind new_hist]. destruct (random_bin a b (mh_nb s) (mh_np s)). cbn. eauto.
Qed.

(** Insertion succeeds. *)
Definition shaped (h : hist) : Prop :=
  exists e, h_edges h = Some e /\ length e = h_nb h /\
  if h_class h then length (h_left h) = h_nb h /\ length (h_right h) = h_nb h
  else length (h_lpile h) = h_nb h /\ length (h_rpile h) = h_nb h.
Lemma fresh_shaped h : fresh h -> h_edges h <> None -> shaped h.
Proof.
  intros [_ F] N. destruct (h_edges h) as [e|] eqn:E; [|contradiction]. exists e. split; auto.
  destruct F as [L F]. split; auto. destruct (h_class h); destruct F as [-> ->]; rewrite !repeat_length; auto.
Qed.

Lemma hist_add_total h X Y W : shaped h -> rectangular W X -> h_feat h < W -> length X = length Y -> Y <> [] ->
  (h_class h = true -> incl Y (h_classes h)) -> exists h', hist_add h X Y = Ok h'.
Proof.
  intros [e [E [LE S]]] R Hf L NY IN. unfold hist_add.
  destruct (col_total X (h_feat h) W R Hf) as [vals Ec]. rewrite Ec. cbn [rbind]. rewrite E. cbn [opt_res rbind].
  destruct (h_class h) eqn:C.
  - destruct S as [S1 S2]. rewrite LE, S1, S2, Nat.eqb_refl. cbn [andb guard rbind].
    apply Nat.eqb_eq in L. rewrite L. cbn [guard rbind].
    assert (NZ : (length Y =? 0) = false) by (destruct Y; [contradiction|reflexivity]). rewrite NZ. cbn [negb guard rbind].
    destruct (mapM_total (fun y => opt_res (qindex y (h_classes h)) ValueError) Y) as [ny EN].
    { intros y I. apply IN in I; auto. apply qindex_in in I. destruct I as [i I]. rewrite I. cbn. eauto. }
    rewrite EN. cbn [rbind]. eauto.
  - destruct S as [S1 S2]. rewrite LE, S1, S2, Nat.eqb_refl. cbn [andb guard rbind].
    apply Nat.eqb_eq in L. rewrite L. cbn [guard rbind]. eauto.
Qed.

(** Scoring succeeds. *)
Definition measure_ok (ic : bool) (m : measure) (K : nat) : Prop :=
  if ic then m = GINI \/ m = MAuto \/ (m = ENTROPY /\ K <= 2) else m = MSE \/ m = MAuto.

Lemma class_impurity_total M m counts pop n : measure_ok true m (length counts) -> counts <> [] ->
  exists r, class_impurity M m counts pop n = Ok r.
Proof.
  intros H N. destruct H as [->|[->|[-> L]]]; cbn [class_impurity].
  - now apply get_gini_total.
  - now apply get_gini_total.
  - unfold get_entropy, class_probs. destruct counts as [|a [|b [|c l]]]; [contradiction| | |cbn in L; lia]; cbn; eauto.
Qed.

Lemma class_score_total M m h edges T bins pop :
  h_class h = true -> class_inv h edges T -> NoDup (h_classes h) -> incl (labels_of T) (h_classes h) ->
  length edges = h_nb h -> T <> [] -> bins <> [] -> NoDup bins -> (forall b, In b bins -> b < h_nb h) ->
  measure_ok true m (length (h_classes h)) ->
  exists rv, get_impurity_reductions M m h bins pop = Ok rv.
Proof.
  intros C [IL IR] ND IN LE NT NB NDB BB MO. unfold get_impurity_reductions.
  assert (LB : length bins <= h_nb h).
  { rewrite <- (seq_length (h_nb h) 0). apply NoDup_incl_length; auto. intros b I. apply in_seq. apply BB in I. lia. }
  apply Nat.leb_le in LB. rewrite LB. cbn [guard rbind]. rewrite C.
  assert (NC : h_classes h <> []).
  { destruct T as [|[x y] T']; [contradiction|]. intros Z. specialize (IN y (or_introl eq_refl)). rewrite Z in IN. destruct IN. }
  assert (ROW : forall b, b < h_nb h -> exists e, nth_error edges b = Some e).
  { intros b L. destruct (nth_error edges b) eqn:E; eauto. apply nth_error_None in E. lia. }
  set (cl := h_classes h) in *. set (f := h_feat h) in *.
  assert (GL : forall b, b < h_nb h -> exists e, nth_res (h_left h) b = Ok (class_counts cl (labels_of (left_part f e T))) /\
                                             nth_res (h_right h) b = Ok (class_counts cl (labels_of (right_part f e T)))).
  { intros b L. destruct (ROW b L) as [e E]. exists e. rewrite !nth_res_ok, IL, IR. unfold lcounts, rcounts.
    rewrite !nth_error_map. fold f. rewrite E. auto. }
  destruct bins as [|b0 bins'] eqn:EB; [contradiction|].
  assert (P0 : 0 < h_nb h) by (specialize (BB b0 (or_introl eq_refl)); lia).
  destruct (GL 0 P0) as [e0 [G1 G2]]. rewrite G1. cbn [rbind]. rewrite G2. cbn [rbind].
  assert (IL' : forall e, incl (labels_of (left_part f e T)) cl) by (intros; eapply incl_tran; [apply left_part_incl|auto]).
  assert (IR' : forall e, incl (labels_of (right_part f e T)) cl) by (intros; eapply incl_tran; [apply right_part_incl|auto]).
  rewrite !sum_class_counts, !labels_length, parts_length by auto.
  assert (NZ : (length T =? 0) = false) by (destruct T; [contradiction|reflexivity]).
  rewrite NZ. cbn [negb guard rbind].
  assert (LC : forall ls, length (class_counts cl ls) = length cl) by (intros; unfold class_counts; apply map_length).
  assert (NN : forall ls, class_counts cl ls <> []) by (intros ls Z; apply (f_equal (@length nat)) in Z; rewrite LC in Z; destruct cl; [contradiction|discriminate]).
  match goal with |- context [mapM ?f ?l] => destruct (mapM_total f l) as [sides ES] end.
  { intros b I. apply BB in I. destruct (GL b I) as [e [H1 H2]]. rewrite H1. cbn [rbind]. rewrite H2. cbn [rbind].
    match goal with |- context [class_impurity M m (class_counts cl (labels_of (left_part f e T))) ?p ?n] =>
      destruct (class_impurity_total M m (class_counts cl (labels_of (left_part f e T))) p n) as [x E1]; [now rewrite LC|auto|] end.
    rewrite E1. cbn [rbind].
    match goal with |- context [class_impurity M m (class_counts cl (labels_of (right_part f e T))) ?p ?n] =>
      destruct (class_impurity_total M m (class_counts cl (labels_of (right_part f e T))) p n) as [y E2]; [now rewrite LC|auto|] end.
    rewrite E2. cbn [rbind]. eauto. }
  rewrite ES. cbn [rbind].
  apply mapM_length in ES. cbn [length] in ES.
  destruct (rev sides) as [|[ab ln] rs] eqn:RS.
  { apply (f_equal (@rev _)) in RS. rewrite rev_involutive in RS. subst sides. discriminate. }
  match goal with |- context [class_impurity M m ?cur pop ln] =>
    destruct (class_impurity_total M m cur pop ln) as [x E1] end.
  { rewrite map_length, combine_length, !LC, Nat.min_id. exact MO. }
  { intros Z. apply (f_equal (@length nat)) in Z. rewrite map_length, combine_length, !LC, Nat.min_id in Z. destruct cl; [contradiction|discriminate]. }
  rewrite E1. cbn [rbind]. eauto.
Qed.

(** Counts of the piles of a regression histogram that has received n samples in total. *)
Definition pile_counts (h : hist) (n : nat) : Prop :=
  p_n (h_cpile h) = n /\
  forall b, b < h_nb h -> exists l r, nth_error (h_lpile h) b = Some l /\ nth_error (h_rpile h) b = Some r /\ p_n l + p_n r = n.

Lemma regr_score_total M m h n bins pop :
  h_class h = false -> pile_counts h n -> 0 < n ->
  bins <> [] -> NoDup bins -> (forall b, In b bins -> b < h_nb h) ->
  measure_ok false m 0 -> (match pop with Some s => n <= s | None => True end) ->
  exists rv, get_impurity_reductions M m h bins pop = Ok rv.
Proof.
  intros C [PC PB] NP NB NDB BB MO PS. unfold get_impurity_reductions.
  assert (LB : length bins <= h_nb h).
  { rewrite <- (seq_length (h_nb h) 0). apply NoDup_incl_length; auto. intros b I. apply in_seq. apply BB in I. lia. }
  apply Nat.leb_le in LB. rewrite LB. cbn [guard rbind]. rewrite C.
  assert (P0 : 0 < h_nb h). { destruct bins as [|b0 ?]; [contradiction|]. specialize (BB b0 (or_introl eq_refl)). lia. }
  destruct (PB 0 P0) as [l0 [r0 [E1 [E2 E3]]]]. apply nth_res_ok in E1. apply nth_res_ok in E2.
  rewrite E1. cbn [rbind]. rewrite E2. cbn [rbind]. rewrite E3.
  assert (NZ : (n =? 0) = false) by (apply Nat.eqb_neq; lia). rewrite NZ. cbn [negb guard rbind].
  assert (RI : forall a pop, (match pop with Some s => p_n a <= s | None => True end) -> exists r, regr_impurity m a pop = Ok r).
  { intros a p H. assert (exists r, get_mse a p = Ok r).
    { unfold get_mse. destruct p as [s|]; [|eauto]. apply Nat.leb_le in H. rewrite H. cbn. eauto. }
    destruct H0 as [r Er]. destruct MO as [->| ->]; cbn; rewrite Er; cbn; eauto. }
  assert (SS : forall k, k <= n -> match side_size pop k n with Some s => k <= s | None => True end).
  { intros k Hk. destruct pop as [s|]; cbn; auto. apply Nat.div_le_lower_bound; [lia|]. nia. }
  match goal with |- context [mapM ?f ?l] => destruct (mapM_total f l) as [sides ES] end.
  { intros b I. apply BB in I. destruct (PB b I) as [l [r [H1 [H2 H3]]]]. apply nth_res_ok in H1. apply nth_res_ok in H2.
    rewrite H1. cbn [rbind]. rewrite H2. cbn [rbind].
    destruct (RI l (side_size pop (p_n l) n)) as [x Ex]; [apply SS; lia|]. rewrite Ex. cbn [rbind].
    destruct (RI r (side_size pop (p_n r) n)) as [y Ey]; [apply SS; lia|]. rewrite Ey. cbn [rbind]. eauto. }
  rewrite ES. cbn [rbind]. destruct (RI (h_cpile h) pop) as [x Ex]. { rewrite PC. exact PS. }
  rewrite Ex. cbn [rbind]. eauto.
Qed.

(** The loop over features succeeds. *)
Lemma st_fold_total M m X Y psize (P : nat -> hist -> Prop) g s :
  (forall f h bs, P f h -> bs <> [] -> NoDup bs -> (forall b, In b bs -> b < h_nb h) ->
     exists h' rv, hist_add h X Y = Ok h' /\ get_impurity_reductions M m h' bs psize = Ok rv) ->
  NoDup (map fst g) ->
  (forall f bs, In (f, bs) g -> bs <> [] /\ NoDup bs /\
     exists h, nth_error (st_hists s) f = Some h /\ P f h /\ forall b, In b bs -> b < h_nb h) ->
  exists s', foldM (st_step M m X Y psize) s g = Ok s'.
Proof.
  intros HT. revert s. induction g as [|[f bs] g IH]; intros s ND H; cbn; [eauto|].
  inversion ND as [|x l N ND']; subst.
  destruct (H f bs (or_introl eq_refl)) as [NB [NDB [h [E [HP HB]]]]].
  destruct (HT f h bs HP NB NDB HB) as [h' [rv [E1 E2]]].
  unfold st_step at 1. cbn [fst snd]. apply nth_res_ok in E. rewrite E. cbn [rbind]. rewrite E1. cbn [rbind].
  rewrite E2. cbn [rbind]. apply IH; auto.
  intros f' bs' I. destruct (H f' bs' (or_intror I)) as [? [? [h2 [K1 K2]]]]. split; auto. split; auto.
  exists h2. split; auto. cbn. rewrite set_nth_nth. destruct (f' =? f) eqn:Q; auto.
  apply Nat.eqb_eq in Q. subst. exfalso. apply N. apply in_map_iff. exists (f, bs'). auto.
Qed.

Lemma flatten_group acc g f bs : flatten g = acc -> NoDup acc -> In (f, bs) g ->
  NoDup bs /\ forall b, In b bs -> In (f, b) acc.
Proof.
  intros <- ND I. unfold flatten in *. split.
  - induction g as [|[k l] g IH]; [destruct I|]. cbn [map concat fst snd] in ND.
    assert (N1 : NoDup (map (fun b => (k, b)) l) /\ NoDup (concat (map (fun fb => map (fun b => (fst fb, b)) (snd fb)) g))).
    { clear - ND. induction (map (fun b => (k, b)) l) as [|a r IH]; cbn in *; [split; auto; constructor|].
      inversion ND; subst. destruct (IH H2). split; auto. constructor; auto. intro. apply H1. apply in_app_iff. auto. }
    destruct N1 as [N1 N2]. destruct I as [Q|I]; auto. injection Q as -> ->. now apply NoDup_map_inv in N1.
  - intros b J. apply in_concat. exists (map (fun b => (f, b)) bs). split.
    + apply in_map_iff. exists (f, bs). auto.
    + apply in_map_iff. eauto.
Qed.

(** ** solve_exactly succeeds *)
Lemma full_step_total M c data labels W hs :
  length labels = length data -> data <> [] -> rectangular W data ->
  measure_ok (s_class c) (s_measure c) (length (unique labels)) ->
  length hs <= W ->
  forall f h bs, first_P (s_class c) (if s_class c then unique labels else []) hs f h -> bs <> [] -> NoDup bs ->
    (forall b, In b bs -> b < h_nb h) ->
  exists h' rv, hist_add h data labels = Ok h' /\ get_impurity_reductions M (s_measure c) h' bs (Some (length data)) = Ok rv.
Proof.
  intros L NE R MO LH f h bs [Hn HF] NB NDB BB. destruct HF as [F1 F2 F3 F4 F5].
  assert (Hf : f < W). { assert (f < length hs) by (apply nth_error_Some; congruence). lia. }
  assert (NEd : h_edges h <> None).
  { intros Z. destruct F4 as [_ F4]. rewrite Z in F4. destruct bs as [|b ?]; [contradiction|].
    specialize (BB b (or_introl eq_refl)). lia. }
  assert (NY : labels <> []) by (intros ->; destruct data; [contradiction|discriminate]).
  destruct (hist_add_total h data labels W) as [h' E]; auto.
  { now apply fresh_shaped. } { now rewrite F2. }
  { intros C. rewrite F3. rewrite F1 in C. rewrite C. intros y I. now apply unique_in. }
  exists h'. destruct (hist_add_same _ _ _ _ E) as [S1 [S2 [S3 [S4 [S5 [S6 [S7 S8]]]]]]].
  destruct (h_edges h) as [edges|] eqn:Ee; [|contradiction]. specialize (F5 _ eq_refl).
  set (T := combine data labels) in *.
  assert (LT : length T = length data) by (unfold T; rewrite combine_length; lia).
  assert (NT : T <> []) by (destruct T; [destruct data; [contradiction|discriminate]|discriminate]).
  assert (LAB : labels_of T = labels) by (apply map_snd_combine; lia).
  assert (LE : length edges = h_nb h). { destruct F4 as [_ F4]. rewrite Ee in F4. tauto. }
  destruct (s_class c) eqn:C.
  - assert (ND : NoDup (h_classes h)) by (rewrite F3; apply unique_nodup).
    destruct (hist_add_class h data labels h' edges [] E F1 Ee F5 ND (class_inv_fresh h edges F4 F1 Ee)) as [_ CI].
    cbn [app] in CI. fold T in CI.
    destruct (class_score_total M (s_measure c) h' edges T bs (Some (length data))) as [rv Er]; auto; try congruence.
    all: try (rewrite S3, F3, LAB; intros y I; now apply unique_in).
    all: try (intros b I; rewrite S4; auto; fail).
    all: try (rewrite S3, F3; exact MO).
    eauto.
  - assert (RI := hist_add_regr_fresh _ _ _ _ _ E F1 Ee F5 F4). fold T in RI. destruct RI as [RL [RR RC]].
    destruct (regr_score_total M (s_measure c) h' (length T) bs (Some (length data))) as [rv Er]; auto; try congruence.
    { split; [rewrite RC; cbn; apply labels_length|]. intros b Hb. rewrite S4, <- LE in Hb.
      destruct (nth_error edges b) as [e|] eqn:Eb; [|apply nth_error_None in Eb; lia].
      rewrite RL, RR. unfold lpiles, rpiles. rewrite !nth_error_map, Eb. cbn. do 2 eexists. split; [reflexivity|].
      split; [reflexivity|]. cbn. rewrite !labels_length. apply parts_length. }
    { destruct T; [contradiction|cbn; lia]. }
    { intros b I. rewrite S4. auto. }
    { lia. }
    eauto.
Qed.

Lemma best_cells_total F B est : 0 < F -> 0 < B -> exists best, best_cells F B est = Ok best.
Proof.
  intros HF HB. unfold best_cells, flat, xnanmin_list.
  destruct (cells F B) as [|x l] eqn:E.
  - apply (f_equal (@length _)) in E. rewrite cells_length in E. cbn in E. nia.
  - cbn. eauto.
Qed.

(** Some candidate edge exists. *)
Definition has_candidate (bt : bintype) (B W : nat) (mm : option (list Qc * list Qc)) (data : list (list Qc)) : Prop :=
  match bt with
  | LINEAR => 2 <= B /\ exists f a b, f < W /\
      (match mm with
       | None => exists fd, col data f = Ok fd /\ list_min fd = Ok a /\ list_max fd = Ok b
       | Some (mn, mx) => nth_error mn f = Some a /\ nth_error mx f = Some b
       end) /\ a <> b
  | IDENTITY => 0 < W
  | RANDOM => 0 < W /\ 0 < B
  | _ => False
  end.

Lemma random_bin_length a b B t : length (fst (random_bin a b B t)) = B.
Proof.
  unfold random_bin. pose proof (uniforms_length a b B t) as U. destruct (uniforms a b B t). cbn in *. now rewrite qsort_length.
Qed.
Lemma uinsert_length a l : length (uinsert a l) <= S (length l).
Proof. induction l as [|b l IH]; cbn; auto. destruct (qlt a b); [cbn; lia|]. destruct (qeq a b); cbn in *; lia. Qed.
Lemma unique_length l : length (unique l) <= length l.
Proof. induction l as [|a l IH]; cbn; auto. pose proof (uinsert_length a (unique l)). unfold unique in *. lia. Qed.
Lemma unique_nonempty l : l <> [] -> unique l <> [].
Proof. intros N Z. destruct l as [|a l]; [contradiction|]. assert (In a (unique (a :: l))) by (apply unique_in; now left). rewrite Z in H. destruct H. Qed.

Lemma solve_exactly_total M c data labels mir e0 W :
  let B := bins_of c (length data) in
  rectangular W data -> data <> [] -> length labels = length data ->
  minmax_covers W (s_minmax c) -> minmax_ok (s_minmax c) -> dd_readable W (s_dd c) ->
  measure_ok (s_class c) (s_measure c) (length (unique labels)) ->
  has_candidate (s_bin c) B W (s_minmax c) data ->
  exists out e1, solve_exactly M c data labels mir e0 = Ok (out, e1).
Proof.
  intros B R NE LL MM MMo DD MO HC. unfold solve_exactly. cbn [alloc]. cbv zeta. cbn [e_np].
  set (N := length data) in *. change (match s_bin c with IDENTITY => N | _ => s_nb c end) with (bins_of c N). fold B.
  assert (ER0 : exists r0, nth_error data 0 = Some r0) by (destruct data; [contradiction|eexists; reflexivity]).
  destruct ER0 as [r0 Hr0].
  assert (L0 : length r0 = W) by (apply R; eapply nth_error_In; eassumption).
  assert (Hr1 : nth_res data 0 = Ok r0) by now apply nth_res_ok. rewrite Hr1. cbn [rbind]. rewrite L0.
  assert (BT : s_bin c = LINEAR \/ s_bin c = IDENTITY \/ s_bin c = RANDOM) by (destruct (s_bin c); cbn in HC; auto; contradiction).
  destruct (make_histograms_total (s_class c) data labels (s_minmax c) (s_dd c) (s_bin c) B (e_np e0) W R) as [mh EM]; auto.
  rewrite EM. cbn [rbind].
  assert (GC : good_config (s_bin c) B N (s_minmax c) (s_dd c)).
  { destruct BT as [Q|[Q|Q]]; rewrite Q in *; cbn in *; tauto. }
  destruct (make_histograms_inv _ _ _ _ _ _ _ _ _ _ Hr0 GC EM) as [[I1 I2 I3 _] HL].
  destruct (make_histograms_rule _ _ _ _ _ _ _ _ _ _ EM Hr0) as [_ ER].
  rewrite L0 in HL. set (hs := mh_hists mh) in *.
  assert (RN : in_range W B (mh_not mh) = true).
  { apply in_range_spec. intros f b I. rewrite I3 in I. apply not_of_in in I. destruct I as [h [E [_ Hb]]]. split; auto.
    rewrite <- HL. apply nth_error_Some. fold hs in E. congruence. }
  rewrite RN. cbn [guard rbind].
  assert (NBB : forall f h, nth_error hs f = Some h -> h_nb h <= B).
  { intros f h E. destruct (I1 f h E) as [_ _ _ [_ Fr] _]. destruct (ER f h E) as [fd [Ec Rl]].
    destruct BT as [Q|[Q|Q]]; rewrite Q in Rl; cbn in Rl.
    - destruct Rl as [a [b [_ Rl]]]. rewrite Rl in Fr. destruct (qeq a b); [lia|]. destruct Fr as [<- _]. rewrite linear_bin_length. auto.
    - rewrite Rl in Fr. destruct Fr as [<- _]. apply col_ok in Ec. subst fd.
      eapply Nat.le_trans; [apply unique_length|]. rewrite map_length. unfold B, bins_of. rewrite Q. auto.
    - destruct Rl as [a [b [t [_ [_ Rl]]]]]. rewrite Rl in Fr. destruct Fr as [<- _]. rewrite random_bin_length. auto. }
  set (acc0 := if negb (length (mh_not mh) =? 0) then mh_cons mh else cells W B).
  assert (HA : acc0 = arms hs W B (not_of B hs) (cons_of hs)) by (unfold acc0, arms; rewrite I2, I3; reflexivity).
  assert (RA : forall f b, In (f, b) acc0 -> f < W /\ b < B).
  { intros f b I. rewrite HA in I. unfold arms in I. destruct (negb (length (not_of B hs) =? 0)).
    - apply cons_of_in in I. destruct I as [h [E Hb]]. split; [rewrite <- HL; apply nth_error_Some; congruence|].
      pose proof (NBB f h E). lia.
    - apply cells_in in I. exact I. }
  assert (RA' : forall f b, In (f, b) (arms hs W B (not_of B hs) (cons_of hs)) -> f < W /\ b < B) by (rewrite <- HA; auto).
  assert (AI := fun f b => arms_in hs W B f b HL RA'). rewrite <- HA in AI.
  (* there is an arm *)
  assert (EX : exists f h, nth_error hs f = Some h /\ 0 < h_nb h).
  { assert (PK : forall f, f < W -> exists h, nth_error hs f = Some h).
    { intros f Hf. destruct (nth_error hs f) eqn:E; eauto. apply nth_error_None in E. lia. }
    destruct BT as [Q|[Q|Q]]; rewrite Q in HC; cbn in HC.
    - destruct HC as [B2 [f [a [b [Hf [Hab Nab]]]]]]. destruct (PK f Hf) as [h E]. exists f, h. split; auto.
      destruct (I1 f h E) as [_ _ _ [_ Fr] _]. destruct (ER f h E) as [fd [Ec Rl]]. rewrite Q in Rl. cbn in Rl.
      destruct Rl as [a' [b' [Hab' Rl]]].
      assert (a' = a /\ b' = b).
      { destruct (s_minmax c) as [[mn mx]|].
        - destruct Hab as [H1 H2], Hab' as [H3 H4]. split; congruence.
        - destruct Hab as [fd' [H0 [H1 H2]]]. rewrite Ec in H0. injection H0 as <-. destruct Hab'. split; congruence. }
      destruct H as [-> ->]. apply qeq_false in Nab. rewrite Nab in Rl. rewrite Rl in Fr. destruct Fr as [<- _].
      rewrite linear_bin_length. lia.
    - destruct (PK 0 HC) as [h E]. exists 0, h. split; auto. destruct (I1 0 h E) as [_ _ _ [_ Fr] _].
      destruct (ER 0 h E) as [fd [Ec Rl]]. rewrite Q in Rl. cbn in Rl. rewrite Rl in Fr. destruct Fr as [<- _].
      apply col_ok in Ec. assert (fd <> []) by (subst fd; destruct data; [contradiction|discriminate]).
      apply unique_nonempty in H. destruct (unique fd); [contradiction|cbn; lia].
    - destruct HC as [HW HB]. destruct (PK 0 HW) as [h E]. exists 0, h. split; auto. destruct (I1 0 h E) as [_ _ _ [_ Fr] _].
      destruct (ER 0 h E) as [fd [Ec Rl]]. rewrite Q in Rl. cbn in Rl. destruct Rl as [a [b [t [_ [_ Rl]]]]].
      rewrite Rl in Fr. destruct Fr as [<- _]. rewrite random_bin_length. exact HB. }
  destruct EX as [f0 [h0 [E0 P0]]].
  assert (IA : In (f0, 0) acc0). { apply AI. split; [|eauto]. pose proof (NBB _ _ E0). lia. }
  assert (EA : accesses acc0 = Ok acc0) by (destruct acc0; [destruct IA|reflexivity]).
  rewrite EA. cbn [rbind].
  assert (BF : by_feature acc0) by (rewrite HA; apply arms_by_feature).
  assert (NDA : NoDup acc0) by (rewrite HA; apply arms_nodup).
  destruct (f2bin_spec acc0 BF) as [FL [NDK NEB]].
  unfold sample_targets. fold N.
  destruct (draw_rows_all N N [] (le_n N)) as [rest [EDr _]]. rewrite EDr. cbn [rbind].
  assert (TD : take_idx data (arange N) = Ok data) by apply take_idx_all.
  assert (TL : take_idx labels (arange N) = Ok labels) by (rewrite <- LL; apply take_idx_all).
  rewrite TD. cbn [rbind]. rewrite TL. cbn [rbind].
  destruct (st_fold_total M (s_measure c) data labels (Some N)
     (first_P (s_class c) (if s_class c then unique labels else []) hs) (f2bin acc0)
     {| st_hists := hs; st_ir := []; st_cb := []; st_q := 0 |}) as [st ES]; auto.
  { intros f h bs. apply (full_step_total M c data labels W hs); auto. lia. }
  { intros f bs I. split; [apply (NEB _ I)|]. destruct (flatten_group acc0 _ f bs FL NDA I) as [G1 G2]. split; auto.
    cbn [st_hists].
    destruct bs as [|b bs']; [specialize (NEB _ I); cbn in NEB; contradiction|].
    pose proof (proj1 (AI f b) (G2 b (or_introl eq_refl))) as [_ [h [E _]]]. exists h. split; auto. split; [split; auto|].
    intros b' I'. pose proof (proj1 (AI f b') (G2 b' I')) as [_ [h' [E' Hb']]]. rewrite E in E'. injection E' as <-. auto. }
  fold hs. rewrite ES. cbn [rbind sr_ir sr_hists sr_q].
  destruct (st_fold M (s_measure c) data labels (Some N) _ _ _ (full_step_ok M c data labels hs LL NE) _ _ _ ES NDK)
    as [A1 [_ [_ [A4 [A5 [[irs [cbs [B1 [_ [B3 [_ B5]]]]]] _]]]]]].
  { intros f h _ Hn. cbn in Hn. split; auto. }
  cbn [st_hists st_q st_ir app] in A1, A4, A5, B1. rewrite FL in B3, B5.
  set (est0 := upd_const _ _ _).
  assert (LAS : (length acc0 =? length (st_ir st)) = true) by (apply Nat.eqb_eq; rewrite B1, map_length, B3; reflexivity).
  unfold assign. rewrite LAS. cbn [guard rbind].
  assert (RR : in_range W B acc0 = true) by (apply in_range_spec; auto). rewrite RR. cbn [guard rbind].
  pose proof (RA f0 0 IA) as [W0 B0].
  destruct (best_cells_total W B (upds est0 acc0 (st_ir st)) ltac:(lia) ltac:(lia)) as [best EB]. rewrite EB. cbn [rbind].
  assert (VAL : forall f b, In (f, b) acc0 -> exists x, upds est0 acc0 (st_ir st) f b = Fin x).
  { intros f b I. destruct (upds_in acc0 (st_ir st) est0 f b NDA) as [i [J1 J2]]; auto. { now apply Nat.eqb_eq. }
    rewrite B1, nth_error_map in J2. destruct (nth_error irs i) as [ir|] eqn:J3; [|discriminate]. cbn in J2.
    injection J2 as J2. rewrite <- B1 in J2. rewrite <- J2. eauto. }
  assert (OUT : forall f b, f < W -> b < B -> ~ In (f, b) acc0 -> upds est0 acc0 (st_ir st) f b = PInf).
  { intros f b Hf Hb NI. rewrite upds_other by auto. unfold est0. apply upd_const_in. rewrite I3. fold hs. apply not_of_in.
    destruct (nth_error hs f) as [h|] eqn:E; [|apply nth_error_None in E; lia].
    exists h. split; auto. split; auto. destruct (le_lt_dec (h_nb h) b); auto. exfalso. apply NI, AI. eauto. }
  destruct (best_cells_spec _ _ _ _ EB) as [NB [m [_ [BE [BI BL]]]]].
  { intros f b Hf Hb. destruct (in_dec cell_eq_dec (f, b) acc0) as [I|I].
    - destruct (VAL f b I) as [x ->]. reflexivity.
    - now rewrite OUT. }
  destruct best as [|[bf bb] best']; [contradiction|].
  destruct (BI bf bb (or_introl eq_refl)) as [Hbf [Hbb Hm]].
  assert (BA : In (bf, bb) acc0).
  { destruct (in_dec cell_eq_dec (bf, bb) acc0) as [I|I]; auto.
    exfalso. rewrite (OUT bf bb Hbf Hbb I) in Hm. subst m.
    specialize (BL f0 0 W0 B0). destruct (VAL f0 0 IA) as [x Ex]. rewrite Ex in BL. discriminate. }
  pose proof (proj1 (AI bf bb) BA) as [_ [bh [Ebh Hbh]]].
  destruct (A4 bf bh Ebh) as [h2 [W1 [W2 W3]]].
  unfold finish. cbn [fst snd]. apply nth_res_ok in W1. rewrite W1. cbn [rbind]. rewrite W2.
  destruct (I1 bf bh Ebh) as [_ _ _ [_ Fr] _]. destruct (h_edges bh) as [ed|] eqn:Eed; [|lia]. destruct Fr as [Le _].
  cbn [opt_res rbind]. destruct (nth_res_lt ed bb) as [v Ev]; [lia|]. rewrite Ev. cbn [rbind]. eauto.
Qed.

(** Facts about make_histograms. *)
From Coq Require Import List Arith Bool ZArith QArith Qcanon Lia Permutation Sorted.
From Verif Require Import Base Num Rng Histogram Utils Spec NumFacts ListFacts HistFacts HistAdd.
Import ListNotations.
Local Open Scope nat_scope.

(** min and max *)
Lemma qmin_fold_le l a : (fold_left qmin2 l a <= a)%Qc.
Proof.
  revert a. induction l as [|b l IH]; intros a; cbn; [apply qle_refl|].
  eapply qle_trans; [apply IH|]. unfold qmin2. destruct (qle a b) eqn:E; [apply qle_refl|].
  apply qle_false in E. now apply qlt_le.
Qed.
Lemma qmin_fold_all l a x : In x l -> (fold_left qmin2 l a <= x)%Qc.
Proof.
  revert a. induction l as [|b l IH]; intros a I; [destruct I|]. cbn.
  destruct I as [->|I]; auto. eapply qle_trans; [apply qmin_fold_le|].
  unfold qmin2. destruct (qle a x) eqn:E; [now apply qle_spec|apply qle_refl].
Qed.
Lemma qmin_fold_in l a : In (fold_left qmin2 l a) (a :: l).
Proof.
  revert a. induction l as [|b l IH]; intros a; cbn; auto.
  destruct (IH (qmin2 a b)) as [E|E]; auto. unfold qmin2 in *. destruct (qle a b); auto.
Qed.
Lemma qmax_fold_le l a : (a <= fold_left qmax2 l a)%Qc.
Proof.
  revert a. induction l as [|b l IH]; intros a; cbn; [apply qle_refl|].
  eapply qle_trans; [|apply IH]. unfold qmax2. destruct (qle a b) eqn:E; [now apply qle_spec|apply qle_refl].
Qed.
Lemma qmax_fold_all l a x : In x l -> (x <= fold_left qmax2 l a)%Qc.
Proof.
  revert a. induction l as [|b l IH]; intros a I; [destruct I|]. cbn.
  destruct I as [->|I]; auto. eapply qle_trans; [|apply qmax_fold_le].
  unfold qmax2. destruct (qle a x) eqn:E; [apply qle_refl|]. apply qle_false in E. now apply qlt_le.
Qed.
Lemma qmax_fold_in l a : In (fold_left qmax2 l a) (a :: l).
Proof.
  revert a. induction l as [|b l IH]; intros a; cbn; auto.
  destruct (IH (qmax2 a b)) as [E|E]; auto. unfold qmax2 in *. destruct (qle a b); auto.
Qed.
Lemma list_min_spec l m : list_min l = Ok m -> In m l /\ forall x, In x l -> (m <= x)%Qc.
Proof.
  destruct l as [|a l]; [discriminate|]. cbn. intros H. injection H as <-. split.
  - apply qmin_fold_in.
  - intros x [<-|I]; [apply qmin_fold_le|now apply qmin_fold_all].
Qed.
Lemma list_max_spec l m : list_max l = Ok m -> In m l /\ forall x, In x l -> (x <= m)%Qc.
Proof.
  destruct l as [|a l]; [discriminate|]. cbn. intros H. injection H as <-. split.
  - apply qmax_fold_in.
  - intros x [<-|I]; [apply qmax_fold_le|now apply qmax_fold_all].
Qed.
Lemma list_min_max l a b : list_min l = Ok a -> list_max l = Ok b -> (a <= b)%Qc.
Proof. intros H1 H2. apply list_min_spec in H1. apply list_max_spec in H2. apply H2, H1. Qed.
Lemma list_min_unique l1 l2 m : (forall x, In x l1 <-> In x l2) -> list_min l1 = Ok m -> list_min l2 = Ok m.
Proof.
  intros E H. apply list_min_spec in H. destruct H as [I H].
  destruct (list_min l2) as [m2|] eqn:E2.
  - apply list_min_spec in E2. destruct E2 as [I2 H2]. f_equal. apply qle_antisym.
    + apply H2, E, I.
    + apply H, E, I2.
  - destruct l2; [apply E in I; destruct I|discriminate].
Qed.
Lemma list_max_unique l1 l2 m : (forall x, In x l1 <-> In x l2) -> list_max l1 = Ok m -> list_max l2 = Ok m.
Proof.
  intros E H. apply list_max_spec in H. destruct H as [I H].
  destruct (list_max l2) as [m2|] eqn:E2.
  - apply list_max_spec in E2. destruct E2 as [I2 H2]. f_equal. apply qle_antisym.
    + apply H, E, I2.
    + apply H2, E, I.
  - destruct l2; [apply E in I; destruct I|discriminate].
Qed.

(** Configurations whose bin indices agree with their edges. *)
Definition minmax_ok (mm : option (list Qc * list Qc)) : Prop :=
  match mm with
  | None => True
  | Some (mn, mx) => forall f a b, nth_error mn f = Some a -> nth_error mx f = Some b -> (a <= b)%Qc
  end.
Definition dd_sorted (dd : option ddict) : Prop :=
  match dd with
  | None => True
  | Some d => forall f l, In (f, DList l) (dd_items d) -> StronglySorted Qcle l
  end.
Definition dd_two (dd : option ddict) : Prop :=
  match dd with
  | None => True
  | Some d => forall f v, In (f, v) (dd_items d) -> 2 <= length (dval_list v)
  end.
Definition good_config (bt : bintype) (B N : nat) (mm : option (list Qc * list Qc)) (dd : option ddict) : Prop :=
  match bt with
  | LINEAR => 2 <= B /\ minmax_ok mm
  | IDENTITY | RANDOM => True
  | DISCRETE => dd_sorted dd
  | BAuto => 2 <= B /\ 2 <= N /\ minmax_ok mm /\ dd_sorted dd /\ dd_two dd
  | BOther => True
  end.

Lemma assoc_in {A} k (l : list (nat * A)) v : assoc k l = Some v -> In (k, v) l.
Proof.
  induction l as [|[j a] l IH]; cbn; [discriminate|].
  destruct (k =? j) eqn:E; auto. apply Nat.eqb_eq in E. subst. intros H. injection H as ->. auto.
Qed.

(** The properties of the histogram built for feature f. *)
Record hist_for (ic : bool) (classes : list Qc) (f : nat) (h : hist) : Prop := {
  hf_class : h_class h = ic;
  hf_feat : h_feat h = f;
  hf_classes : h_classes h = classes;
  hf_fresh : fresh h;
  hf_agrees : forall edges, h_edges h = Some edges -> agrees h edges
}.

Definition cons_of (hs : list hist) : list (nat * nat) :=
  concat (mapi (fun i h => map (fun b => (i, b)) (seq 0 (h_nb h))) hs).
Definition not_of (B : nat) (hs : list hist) : list (nat * nat) :=
  concat (mapi (fun i h => map (fun b => (i, b)) (seq (h_nb h) (B - h_nb h))) hs).

Lemma mapi_from_app {A B} (g : nat -> A -> B) l1 l2 k :
  mapi_from k g (l1 ++ l2) = mapi_from k g l1 ++ mapi_from (k + length l1) g l2.
Proof.
  revert k. induction l1 as [|a l1 IH]; intros k; cbn.
  - now rewrite Nat.add_0_r.
  - rewrite IH. do 2 f_equal. now rewrite Nat.add_succ_comm.
Qed.
Lemma mapi_snoc {A B} (g : nat -> A -> B) l a : mapi g (l ++ [a]) = mapi g l ++ [g (length l) a].
Proof. unfold mapi. rewrite mapi_from_app. reflexivity. Qed.
Lemma cons_of_snoc hs h : cons_of (hs ++ [h]) = cons_of hs ++ map (fun b => (length hs, b)) (seq 0 (h_nb h)).
Proof. unfold cons_of. rewrite mapi_snoc, concat_app. cbn. now rewrite app_nil_r. Qed.
Lemma not_of_snoc B hs h : not_of B (hs ++ [h]) = not_of B hs ++ map (fun b => (length hs, b)) (seq (h_nb h) (B - h_nb h)).
Proof. unfold not_of. rewrite mapi_snoc, concat_app. cbn. now rewrite app_nil_r. Qed.

Lemma in_concat_mapi {A} (g : nat -> A -> list (nat * nat)) hs x :
  In x (concat (mapi g hs)) <-> exists i h, nth_error hs i = Some h /\ In x (g i h).
Proof.
  rewrite in_concat. split.
  - intros [l [I J]]. apply In_nth_error in I. destruct I as [i I]. rewrite mapi_nth in I.
    destruct (nth_error hs i) as [h|] eqn:E; [|discriminate]. injection I as <-. eauto.
  - intros [i [h [E J]]]. exists (g i h). split; auto.
    apply nth_error_In with i. rewrite mapi_nth, E. reflexivity.
Qed.
Lemma cons_of_in hs f b : In (f, b) (cons_of hs) <-> exists h, nth_error hs f = Some h /\ b < h_nb h.
Proof.
  unfold cons_of. rewrite in_concat_mapi. split.
  - intros [i [h [E J]]]. apply in_map_iff in J. destruct J as [x [Q J]]. injection Q as <- <-.
    apply in_seq in J. exists h. split; auto. lia.
  - intros [h [E L]]. exists f, h. split; auto. apply in_map_iff. exists b. split; auto. apply in_seq. lia.
Qed.
Lemma not_of_in B hs f b : In (f, b) (not_of B hs) <-> exists h, nth_error hs f = Some h /\ h_nb h <= b < B.
Proof.
  unfold not_of. rewrite in_concat_mapi. split.
  - intros [i [h [E J]]]. apply in_map_iff in J. destruct J as [x [Q J]]. injection Q as <- <-.
    apply in_seq in J. exists h. split; auto. lia.
  - intros [h [E L]]. exists f, h. split; auto. apply in_map_iff. exists b. split; auto. apply in_seq. lia.
Qed.

Record mh_inv (ic : bool) (classes : list Qc) (bt : bintype) (B N : nat) (s : mhstate) : Prop := {
  mi_hists : forall f h, nth_error (mh_hists s) f = Some h -> hist_for ic classes f h;
  mi_cons : mh_cons s = cons_of (mh_hists s);
  mi_not : mh_not s = not_of B (mh_hists s);
  mi_nb : match bt with
          | LINEAR => mh_nb s = B
          | RANDOM => mh_nb s = B
          | BAuto => 2 <= B -> 2 <= N -> 2 <= mh_nb s
          | _ => True
          end
}.

Lemma mh_step_inv ic data classes mm dd bt B s f s' :
  good_config bt B (length data) mm dd ->
  mh_step ic data classes mm dd bt B s f = Ok s' -> length (mh_hists s) = f ->
  mh_inv ic classes bt B (length data) s ->
  mh_inv ic classes bt B (length data) s' /\ exists h, mh_hists s' = mh_hists s ++ [h].
Proof.
  intros G H L [I1 I2 I3 I4]. unfold mh_step in H.
  apply rbind_ok in H. destruct H as [fd [Ec H]].
  apply rbind_ok in H. destruct H as [[D uf] [Ed H]].
  set (ty := match bt with BAuto => choose_bin_type D (length data) B | _ => bt end) in *.
  apply rbind_ok in H. destruct H as [[[nb mn] mx] [En H]].
  apply rbind_ok in H. destruct H as [[h t'] [Eh H]].
  injection H as <-. cbn [mh_hists]. split; [|eauto].
  (* facts about the discrete values *)
  assert (HD : match uf with
               | Some v => exists d, dd = Some d /\ In (f, v) (dd_items d) /\ D = Some (length (dval_list v))
               | None => D = None end).
  { destruct dd as [d|].
    - apply rbind_ok in Ed. destruct Ed as [v [Ev Ed]].
      destruct (length (dval_list v) =? 0) eqn:Z; injection Ed as <- <-; auto.
      exists d. repeat split; auto. unfold dd_get in Ev.
      destruct (assoc f (dd_items d)) eqn:A.
      + injection Ev as ->. now apply assoc_in.
      + destruct (dd_default d); [|discriminate]. injection Ev as <-. cbn in Z. discriminate.
    - injection Ed as <- <-. auto. }
  assert (HB : bt = BAuto -> ty = DISCRETE \/ ty = IDENTITY \/ ty = LINEAR).
  { intros ->. unfold ty, choose_bin_type. destruct D.
    - destruct (_ =? _); auto. destruct (_ =? _); auto.
    - destruct (_ =? _); auto. }
  assert (HN : match bt with LINEAR | RANDOM => nb = B
               | BAuto => 2 <= B -> 2 <= length data -> 2 <= nb | _ => True end).
  { destruct bt; cbn in ty; auto.
    - unfold ty in En. destruct mm as [[? ?]|]; inv_ok En; subst; auto.
    - unfold ty in En. inv_ok En; subst; auto.
    - intros B2 N2. destruct G as [_ [_ [_ [_ G]]]].
      destruct (HB eq_refl) as [T|[T|T]]; rewrite T in En.
      + destruct dd as [d|]; [|discriminate]. destruct D as [d0|]; [|discriminate].
        injection En as <- _ _. destruct uf as [v|]; [|discriminate].
        destruct HD as [d' [Q [I E]]]. injection Q as <-. injection E as ->. eapply G; eauto.
      + injection En as <- _ _. auto.
      + destruct mm as [[? ?]|]; inv_ok En; subst; auto. }
  assert (GB : good_bins ty nb mn mx uf).
  { unfold good_bins. destruct ty eqn:T; auto.
    - assert (H2 : 2 <= nb /\ minmax_ok mm).
      { destruct bt; try (unfold ty in T; discriminate).
        - destruct G. subst nb. auto.
        - destruct G as [? [? [? _]]]. auto. }
      destruct H2 as [H2 MM]. split; auto.
      destruct mm as [[mn' mx']|].
      + apply rbind_ok in En. destruct En as [a [E1 En]]. apply rbind_ok in En. destruct En as [b [E2 En]].
        injection En as _ <- <-. apply nth_res_ok in E1. apply nth_res_ok in E2. eapply MM; eauto.
      + apply rbind_ok in En. destruct En as [a [E1 En]]. apply rbind_ok in En. destruct En as [b [E2 En]].
        injection En as _ <- <-. eapply list_min_max; eauto.
    - assert (DS : dd_sorted dd).
      { destruct bt; try (unfold ty in T; discriminate); auto. cbn in G. tauto. }
      destruct uf as [[l|l]|]; auto. destruct HD as [d [-> [I _]]]. cbn in DS. eauto. }
  constructor; cbn [mh_hists mh_cons mh_not mh_nb].
  - intros g h' Hg. destruct (Nat.eq_dec g (length (mh_hists s))) as [->|Ne].
    + rewrite nth_error_app2, Nat.sub_diag in Hg by lia. cbn in Hg. injection Hg as <-.
      destruct (new_hist_fields _ _ _ _ _ _ _ _ _ _ _ _ Eh) as [F1 [F2 [F3 F4]]].
      constructor; auto; [lia|eapply new_hist_fresh; eauto|].
      intros edges He. eapply new_hist_agrees; eauto.
    + assert (g < length (mh_hists s ++ [h])) by (apply nth_error_Some; congruence).
      rewrite app_length in H. cbn in H. rewrite nth_error_app1 in Hg by lia. auto.
  - now rewrite cons_of_snoc, L, I2.
  - now rewrite not_of_snoc, L, I3.
  - destruct bt; auto.
Qed.

Lemma make_histograms_inv ic data labels mm dd bt B np s r0 :
  nth_error data 0 = Some r0 ->
  good_config bt B (length data) mm dd ->
  make_histograms ic data labels mm dd bt B np = Ok s ->
  mh_inv ic (if ic then unique labels else []) bt B (length data) s /\ length (mh_hists s) = length r0.
Proof.
  intros Hr G H. unfold make_histograms in H. apply rbind_ok in H. destruct H as [r [E H]].
  apply nth_res_ok in E. rewrite Hr in E. injection E as <-.
  set (cl := if ic then unique labels else []) in *.
  assert (K : forall n k s1 s2, length (mh_hists s1) = k -> mh_inv ic cl bt B (length data) s1 ->
     foldM (mh_step ic data cl mm dd bt B) s1 (seq k n) = Ok s2 ->
     mh_inv ic cl bt B (length data) s2 /\ length (mh_hists s2) = k + n).
  { induction n as [|n IH]; intros k s1 s2 L I F; cbn in F.
    - injection F as <-. split; auto. lia.
    - apply rbind_ok in F. destruct F as [s3 [E F]].
      destruct (mh_step_inv _ _ _ _ _ _ _ _ _ _ G E L I) as [I3 [h Eh]].
      destruct (IH (S k) s3 s2) as [I4 L4]; auto.
      + rewrite Eh, app_length. cbn. lia.
      + split; auto. lia. }
  refine ((fun I0 => K (length r0) 0 _ s _ I0 H) _); [reflexivity|].
  constructor; cbn; auto.
  - intros f h E. destruct f; discriminate.
  - destruct bt; auto.
Qed.

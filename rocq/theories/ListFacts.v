(** Facts about the list and error-monad combinators of Base.v. *)
From Coq Require Import List Arith Bool ZArith Lia Permutation.
From Verif Require Import Base.
Import ListNotations.

Global Arguments Nat.ltb _ _ : simpl never.

Lemma rbind_ok {A B} (m : res A) (f : A -> res B) b :
  rbind m f = Ok b -> exists a, m = Ok a /\ f a = Ok b.
Proof. destruct m; cbn; intros H; [eauto|discriminate]. Qed.

Lemma ok_pair_inv {A B} (a c : A) (b d : B) : Ok (a, b) = Ok (c, d) -> a = c /\ b = d.
Proof. intros H. injection H as E1 E2. auto. Qed.

(** Invert a computation known to return normally. *)
Ltac inv_ok H :=
  match type of H with
  | rbind ?m ?f = Ok _ =>
      let a := fresh "r" in let E := fresh "E" in
      apply rbind_ok in H; destruct H as [a [E H]]; try inv_ok H
  | Ok _ = Ok _ => injection H; clear H; intros
  | Err _ = Ok _ => discriminate H
  end.

Lemma guard_ok c e u : guard c e = Ok u -> c = true.
Proof. unfold guard. destruct c; [auto|discriminate]. Qed.
Lemma guard_true c e : c = true -> guard c e = Ok tt.
Proof. now intros ->. Qed.
Lemma opt_res_ok {A} (o : option A) e a : opt_res o e = Ok a -> o = Some a.
Proof. destruct o; cbn; congruence. Qed.
Lemma nth_res_ok {A} (l : list A) i a : nth_res l i = Ok a <-> nth_error l i = Some a.
Proof. unfold nth_res. destruct (nth_error l i); split; congruence. Qed.
Lemma nth_res_lt {A} (l : list A) i : (i < length l)%nat -> exists a, nth_res l i = Ok a.
Proof.
  intros H. unfold nth_res. destruct (nth_error l i) eqn:E; eauto.
  apply nth_error_None in E. lia.
Qed.

Lemma Forall2_len {A B} (R : A -> B -> Prop) l l' : Forall2 R l l' -> length l = length l'.
Proof. induction 1; cbn; auto. Qed.

(** mapM *)
Lemma mapM_Forall2 {A B} (f : A -> res B) l l' :
  mapM f l = Ok l' <-> Forall2 (fun a b => f a = Ok b) l l'.
Proof.
  revert l'. induction l as [|a l IH]; intros l'; cbn [mapM]; split; intros H.
  - injection H as <-. constructor.
  - inversion H; reflexivity.
  - inv_ok H. subst. constructor; auto. now apply IH.
  - inversion H; subst. rewrite H2. cbn. apply IH in H4. rewrite H4. reflexivity.
Qed.
Lemma mapM_length {A B} (f : A -> res B) l l' : mapM f l = Ok l' -> length l' = length l.
Proof. intros H. apply mapM_Forall2 in H. symmetry. eapply Forall2_len; eauto. Qed.
Lemma mapM_nth {A B} (f : A -> res B) l l' i b :
  mapM f l = Ok l' -> nth_error l' i = Some b -> exists a, nth_error l i = Some a /\ f a = Ok b.
Proof.
  intros H. apply mapM_Forall2 in H. revert i.
  induction H as [|x y l l' Hxy H IH]; intros [|i] E; cbn in *; try discriminate.
  - injection E as <-. eauto.
  - eauto.
Qed.
Lemma mapM_nth' {A B} (f : A -> res B) l l' i a :
  mapM f l = Ok l' -> nth_error l i = Some a -> exists b, nth_error l' i = Some b /\ f a = Ok b.
Proof.
  intros H. apply mapM_Forall2 in H. revert i.
  induction H as [|x y l l' Hxy H IH]; intros [|i] E; cbn in *; try discriminate.
  - injection E as <-. eauto.
  - eauto.
Qed.
Lemma mapM_pure {A B} (f : A -> res B) (g : A -> B) l :
  (forall a, In a l -> f a = Ok (g a)) -> mapM f l = Ok (map g l).
Proof.
  induction l as [|a l IH]; intros H; cbn; auto.
  rewrite H by now left. cbn. rewrite IH by (intros; apply H; now right). reflexivity.
Qed.
Lemma mapM_ok_map {A B} (f : A -> res B) (g : A -> B) l l' :
  (forall a b, In a l -> f a = Ok b -> b = g a) -> mapM f l = Ok l' -> l' = map g l.
Proof.
  revert l'. induction l as [|a l IH]; intros l' H E; cbn in *.
  - now injection E as <-.
  - inv_ok E. subst. f_equal; [eapply H; eauto|]. eapply IH; eauto.
Qed.
Lemma mapM_total {A B} (f : A -> res B) l :
  (forall a, In a l -> exists b, f a = Ok b) -> exists l', mapM f l = Ok l'.
Proof.
  induction l as [|a l IH]; intros H; cbn; eauto.
  destruct (H a) as [b E]; [now left|]. rewrite E. cbn.
  destruct IH as [l' E']; [intros; apply H; now right|]. rewrite E'. cbn. eauto.
Qed.
Lemma mapM_In {A B} (f : A -> res B) l l' b :
  mapM f l = Ok l' -> In b l' -> exists a, In a l /\ f a = Ok b.
Proof.
  intros H I. apply In_nth_error in I. destruct I as [i I].
  destruct (mapM_nth _ _ _ _ _ H I) as [a [E1 E2]]. exists a. split; auto.
  eapply nth_error_In; eauto.
Qed.
Lemma mapM_map {A B C} (f : B -> res C) (g : A -> B) l :
  mapM f (map g l) = mapM (fun a => f (g a)) l.
Proof. induction l as [|a l IH]; cbn; auto. rewrite IH. reflexivity. Qed.
Lemma mapM_app {A B} (f : A -> res B) l1 l2 :
  mapM f (l1 ++ l2) = (do a <- mapM f l1; do b <- mapM f l2; Ok (a ++ b)).
Proof.
  induction l1 as [|a l1 IH]; cbn.
  - destruct (mapM f l2); reflexivity.
  - destruct (f a); cbn; auto. rewrite IH. destruct (mapM f l1); cbn; auto.
    destruct (mapM f l2); reflexivity.
Qed.
Lemma mapM_ext {A B} (f g : A -> res B) l : (forall a, In a l -> f a = g a) -> mapM f l = mapM g l.
Proof.
  induction l as [|a l IH]; intros H; cbn; auto.
  rewrite H by now left. rewrite IH by (intros; apply H; now right). reflexivity.
Qed.

(** foldM *)
Lemma foldM_inv {A S} (f : S -> A -> res S) (P : S -> Prop) s l s' :
  P s -> (forall a s1 s2, In a l -> P s1 -> f s1 a = Ok s2 -> P s2) -> foldM f s l = Ok s' -> P s'.
Proof.
  revert s. induction l as [|a l IH]; intros s H1 H2 E; cbn in *.
  - now injection E as <-.
  - inv_ok E. apply (IH r); auto.
    + eapply H2; eauto.
    + intros b s1 s2 I. apply (H2 b s1 s2). now right.
Qed.
Lemma foldM_app {A S} (f : S -> A -> res S) s l1 l2 :
  foldM f s (l1 ++ l2) = (do s' <- foldM f s l1; foldM f s' l2).
Proof.
  revert s. induction l1 as [|a l1 IH]; intros s; cbn; auto.
  destruct (f s a); cbn; auto.
Qed.
Lemma foldM_total {A S} (f : S -> A -> res S) (P : S -> Prop) s l :
  P s -> (forall a s1, In a l -> P s1 -> exists s2, f s1 a = Ok s2 /\ P s2) ->
  exists s', foldM f s l = Ok s' /\ P s'.
Proof.
  revert s. induction l as [|a l IH]; intros s H1 H2; cbn.
  - eauto.
  - destruct (H2 a s) as [s2 [E P2]]; auto; [now left|]. rewrite E. cbn.
    apply IH; auto. intros; apply H2; auto. now right.
Qed.

(** mapi *)
Lemma mapi_from_nth {A B} (f : nat -> A -> B) l k i :
  nth_error (mapi_from k f l) i = option_map (f (k + i)) (nth_error l i).
Proof.
  revert k i. induction l as [|a l IH]; intros k [|i]; cbn; auto.
  - now rewrite Nat.add_0_r.
  - rewrite IH. now rewrite Nat.add_succ_r.
Qed.
Lemma mapi_nth {A B} (f : nat -> A -> B) l i :
  nth_error (mapi f l) i = option_map (f i) (nth_error l i).
Proof. unfold mapi. now rewrite mapi_from_nth. Qed.
Lemma mapi_from_length {A B} (f : nat -> A -> B) l k : length (mapi_from k f l) = length l.
Proof. revert k. induction l; intros; cbn; auto. Qed.
Lemma mapi_length {A B} (f : nat -> A -> B) l : length (mapi f l) = length l.
Proof. apply mapi_from_length. Qed.

Lemma list_ext {A} (l1 l2 : list A) :
  (forall i, nth_error l1 i = nth_error l2 i) -> l1 = l2.
Proof.
  revert l2. induction l1 as [|a l1 IH]; intros [|b l2] H; auto.
  - specialize (H 0%nat). discriminate.
  - specialize (H 0%nat). discriminate.
  - f_equal.
    + specialize (H 0%nat). now injection H.
    + apply IH. intros i. exact (H (S i)).
Qed.

(** set_nth / remove_nth *)
Lemma set_nth_length {A} i (a : A) l : length (set_nth i a l) = length l.
Proof. revert i. induction l; intros [|i]; cbn; auto. Qed.
Lemma set_nth_nth {A} i (a : A) l j :
  nth_error (set_nth i a l) j =
  if (j =? i)%nat then (match nth_error l i with Some _ => Some a | None => None end) else nth_error l j.
Proof.
  revert i j. induction l as [|x l IH]; intros [|i] [|j]; cbn; auto.
  - destruct (j =? i)%nat; auto.
Qed.
Lemma set_nth_same {A} i (a : A) l : nth_error l i = Some a -> set_nth i a l = l.
Proof.
  revert i. induction l as [|x l IH]; intros [|i] E; cbn in *; auto; try congruence.
  f_equal. auto.
Qed.
Lemma set_nth_twice {A} i (a b : A) l : set_nth i a (set_nth i b l) = set_nth i a l.
Proof. revert i. induction l as [|x l IH]; intros [|i]; cbn; auto. f_equal; auto. Qed.
Lemma remove_nth_length {A} i (l : list A) : (i < length l)%nat -> S (length (remove_nth i l)) = length l.
Proof.
  revert i. induction l as [|x l IH]; intros [|i] H; cbn in *; try lia.
  rewrite IH; lia.
Qed.
Lemma remove_nth_perm {A} i (l : list A) a :
  nth_error l i = Some a -> Permutation l (a :: remove_nth i l).
Proof.
  revert i. induction l as [|x l IH]; intros [|i] E; cbn in *; try discriminate.
  - injection E as ->. apply Permutation_refl.
  - apply IH in E. rewrite perm_swap. now apply perm_skip.
Qed.
Lemma remove_nth_In {A} i (l : list A) a : In a (remove_nth i l) -> In a l.
Proof.
  revert i. induction l as [|x l IH]; intros [|i] H; cbn in *; auto.
  destruct H; eauto.
Qed.

(** cells *)
Lemma cells_in F B f b : In (f, b) (cells F B) <-> (f < F /\ b < B)%nat.
Proof. unfold cells. rewrite in_prod_iff, !in_seq. lia. Qed.
Lemma cells_length F B : length (cells F B) = (F * B)%nat.
Proof. unfold cells. rewrite prod_length, !seq_length. reflexivity. Qed.
Lemma NoDup_prod {A B} (l1 : list A) (l2 : list B) : NoDup l1 -> NoDup l2 -> NoDup (list_prod l1 l2).
Proof.
  induction 1 as [|a l1 N H IH]; intros H2; cbn; [constructor|].
  assert (forall x, In x (map (fun y => (a, y)) l2) -> ~ In x (list_prod l1 l2)).
  { intros [u v] I1 I2. apply in_map_iff in I1. destruct I1 as [y [E _]]. injection E as <- <-.
    apply in_prod_iff in I2. tauto. }
  assert (NoDup (map (fun y => (a, y)) l2)).
  { apply FinFun.Injective_map_NoDup; auto. intros x y E. congruence. }
  specialize (IH H2). clear H2 H.
  induction (map (fun y => (a, y)) l2) as [|x l IHl]; cbn; auto.
  inversion H1; subst. constructor.
  - rewrite in_app_iff. intros [I|I]; [auto|]. eapply H0; [now left|eauto].
  - apply IHl; auto. intros; apply H0. now right.
Qed.
Lemma cells_nodup F B : NoDup (cells F B).
Proof. unfold cells. apply NoDup_prod; apply seq_NoDup. Qed.

(** combine *)
Lemma combine_nth_error {A B} (l1 : list A) (l2 : list B) i :
  nth_error (combine l1 l2) i =
  match nth_error l1 i, nth_error l2 i with Some a, Some b => Some (a, b) | _, _ => None end.
Proof.
  revert l2 i. induction l1 as [|a l1 IH]; intros [|b l2] [|i]; cbn; auto.
  - destruct (nth_error l1 i); auto.
Qed.
Lemma map_fst_combine {A B} (l1 : list A) (l2 : list B) :
  length l1 = length l2 -> map fst (combine l1 l2) = l1.
Proof.
  revert l2. induction l1; intros [|b l2] H; cbn in *; try discriminate; auto.
  f_equal. auto.
Qed.
Lemma map_snd_combine {A B} (l1 : list A) (l2 : list B) :
  length l1 = length l2 -> map snd (combine l1 l2) = l2.
Proof.
  revert l2. induction l1; intros [|b l2] H; cbn in *; try discriminate; auto.
  f_equal. auto.
Qed.
Lemma combine_map_l {A B C} (f : A -> C) (l1 : list A) (l2 : list B) :
  combine (map f l1) l2 = map (fun p => (f (fst p), snd p)) (combine l1 l2).
Proof. revert l2. induction l1; intros [|b l2]; cbn; auto. f_equal. auto. Qed.
Lemma combine_map_r {A B C} (f : B -> C) (l1 : list A) (l2 : list B) :
  combine l1 (map f l2) = map (fun p => (fst p, f (snd p))) (combine l1 l2).
Proof. revert l2. induction l1; intros [|b l2]; cbn; auto. f_equal. auto. Qed.

(** filter *)
Lemma filter_map_comm {A B} (p : B -> bool) (f : A -> B) l :
  filter p (map f l) = map f (filter (fun a => p (f a)) l).
Proof. induction l as [|a l IH]; cbn; auto. destruct (p (f a)); cbn; rewrite IH; auto. Qed.
Lemma filter_perm {A} (p : A -> bool) l1 l2 : Permutation l1 l2 -> Permutation (filter p l1) (filter p l2).
Proof.
  induction 1; cbn; auto.
  - destruct (p x); auto.
  - destruct (p x), (p y); auto. apply perm_swap.
  - eapply perm_trans; eauto.
Qed.
Lemma filter_split_perm {A} (p : A -> bool) l :
  Permutation l (filter p l ++ filter (fun a => negb (p a)) l).
Proof.
  induction l as [|a l IH]; cbn; auto. destruct (p a); cbn.
  - now apply perm_skip.
  - rewrite IH at 1. apply Permutation_middle.
Qed.
Lemma filter_length_split {A} (p : A -> bool) l :
  (length (filter p l) + length (filter (fun a => negb (p a)) l) = length l)%nat.
Proof. induction l as [|a l IH]; cbn; auto. destruct (p a); cbn; lia. Qed.


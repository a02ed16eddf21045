(** The error of a forest is the mean of its trees' errors less their disagreement. *)
From Coq Require Import List Arith Bool ZArith QArith Qcanon Lia.
From Verif Require Import Base Num Rng Histogram Utils Criteria Solvers Tree Forest Spec SolverSpec TreeSpec ForestSpec EnsSpec NumFacts ListFacts HistAdd ForestThms ForestFacts ForestMore.
Import ListNotations.
Local Open Scope nat_scope.

Ltac tq := repeat match goal with |- context [total ?l] => rewrite (total_qsum l) end.
Lemma mean_map_minus {A} (g h : A -> Qc) l : mean (map (fun a => g a - h a)%Qc l) = (mean (map g l) - mean (map h l))%Qc.
Proof.
  unfold mean. rewrite !map_length. tq.
  assert (X : qsum (map (fun a => g a - h a)%Qc l) = (qsum (map g l) - qsum (map h l))%Qc).
  { induction l as [|a l IH]; cbn [map qsum]; [ring|]. rewrite IH. ring. }
  rewrite X. unfold Qcdiv.  ring.
Qed.
Lemma mean_map_ext {A} (g h : A -> Qc) l : (forall a, In a l -> g a = h a) -> mean (map g l) = mean (map h l).
Proof. intros E. f_equal. now apply map_ext_in. Qed.
Lemma mean_swap {A B} (g : A -> B -> Qc) l l' : mean (map (fun a => mean (map (g a) l')) l) = mean (map (fun b => mean (map (fun a => g a b) l)) l').
Proof.
  unfold mean. rewrite !map_length. tq.
  assert (X : forall {A B} (g : A -> B -> Qc) l l', qsum (map (fun a => total (map (g a) l') / rat (length (map (g a) l')))%Qc l) = (qsum (map (fun a => qsum (map (g a) l')) l) / rat (length l'))%Qc).
  { intros A' B' g' m m'. induction m as [|a m IH]; cbn [map qsum]; [unfold Qcdiv; ring|]. rewrite IH. rewrite map_length, total_qsum. unfold Qcdiv. ring. }
  rewrite X, (X _ _ (fun b a => g a b)). rewrite (qsum_swap g). unfold Qcdiv. ring.
Qed.
Lemma mean_total_swap {A B} (g : A -> B -> Qc) l l' : mean (map (fun a => total (map (g a) l')) l) = total (map (fun b => mean (map (fun a => g a b) l)) l').
Proof.
  unfold mean. rewrite !map_length. tq.
  rewrite (qsum_map_ext (fun a => total (map (g a) l')) (fun a => qsum (map (g a) l'))) by (intros; apply total_qsum).
  rewrite (qsum_swap g). rewrite (qsum_map_ext (fun b => total (map (fun a => g a b) l) / rat (length (map (fun a => g a b) l)))%Qc (fun b => / rat (length l) * qsum (map (fun a => g a b) l))%Qc).
  - rewrite qsum_map_scal. unfold Qcdiv. ring.
  - intros b _. rewrite map_length, total_qsum. unfold Qcdiv. ring.
Qed.

(** The squared error of the mean. *)
Lemma squared_mean l y : l <> [] -> squared (mean l) y = (mean (map (fun u => squared u y) l) - variance l)%Qc.
Proof.
  intros NE. assert (NP : rat (length l) <> 0%Qc) by (apply Nq_neq0; destruct l; [contradiction|cbn; lia]).
  unfold variance. set (m := mean l). assert (EM : total l = (m * rat (length l))%Qc) by (unfold m, mean; field; exact NP).
  unfold mean. rewrite map_length.
  assert (X : (total (map (fun u => squared u y) l) - total (map (fun u => (u - m) * (u - m)) l) = (1 + 1) * (m - y) * total l + rat (length l) * (y * y - m * m))%Qc).
  { clear. generalize m. clear m. intros m. induction l as [|a l IH]; cbn [map total length]; [change (rat 0) with 0%Qc; ring|].
    replace (rat (S (length l))) with (1 + rat (length l))%Qc by (change rat with Nq; rewrite Nq_S; ring).
    transitivity ((squared a y - (a - m) * (a - m)) + (total (map (fun u => squared u y) l) - total (map (fun u => (u - m) * (u - m)) l)))%Qc; [ring|]. rewrite IH. unfold squared. ring. }
  replace (total (map (fun u => squared u y) l) / rat (length l) - total (map (fun u => (u - m) * (u - m)) l) / rat (length l))%Qc with
    ((total (map (fun u => squared u y) l) - total (map (fun u => (u - m) * (u - m)) l)) / rat (length l))%Qc by (unfold Qcdiv; ring).
  rewrite X, EM. unfold squared. field. exact NP.
Qed.
Lemma variance_nonneg l : (0 <= variance l)%Qc.
Proof.
  unfold variance. destruct l as [|a l]; [cbn; apply Qcle_refl|]. apply qdiv_le_0.
  - rewrite total_qsum. apply qsum_nonneg. intros x I. apply in_map_iff in I. destruct I as [u [<- _]]. apply qsquare_nonneg.
  - apply Nq_pos. cbn. lia.
Qed.
Lemma mean_nonneg {A} (g : A -> Qc) l : (forall a, In a l -> (0 <= g a)%Qc) -> (0 <= mean (map g l))%Qc.
Proof.
  intros H. unfold mean. destruct l as [|a l]; [cbn; apply Qcle_refl|]. apply qdiv_le_0.
  - rewrite total_qsum. apply qsum_nonneg. intros x I. apply in_map_iff in I. destruct I as [u [<- I]]. now apply H.
  - apply Nq_pos. cbn. lia.
Qed.
Lemma some_above {A} (g : A -> Qc) l q : l <> [] -> (q <= mean (map g l))%Qc -> exists a, In a l /\ (q <= g a)%Qc.
Proof.
  intros NE H. destruct (existsb (fun a => qle q (g a)) l) eqn:E.
  - apply existsb_exists in E. destruct E as [a [I E]]. exists a. split; auto. now apply qle_spec.
  - exfalso. assert (X : forall a, In a l -> (g a < q)%Qc).
    { intros a I. destruct (qle q (g a)) eqn:Q; [|apply qle_false; assumption]. assert (existsb (fun a => qle q (g a)) l = true) by (apply existsb_exists; eauto). congruence. }
    assert (Y : (qsum (map g l) < Nq (length l) * q)%Qc).
    { clear -NE X. induction l as [|a l IH]; [contradiction|]. cbn [map qsum length]. rewrite Nq_S. destruct l as [|b l].
      - cbn. pose proof (X a (or_introl eq_refl)). rewrite Nq_0. qlra.
      - pose proof (X a (or_introl eq_refl)). assert (qsum (map g (b :: l)) < Nq (length (b :: l)) * q)%Qc by (apply IH; [discriminate|]; intros; apply X; now right).
        set (s := qsum (map g (b :: l))) in *. set (k := (Nq (length (b :: l)))) in *. set (kq := (k * q)%Qc) in *. replace ((k + 1) * q)%Qc with (kq + q)%Qc by (unfold kq; ring). qlra. }
    unfold mean in H. rewrite map_length, total_qsum in H. apply qle_div_iff in H; [|apply Nq_pos; destruct l; [contradiction|cbn; lia]].
    apply (Qcle_not_lt _ _ H). rewrite Qcmult_comm. exact Y.
Qed.

Section Forest.
Context (M : math) (P : prng) (c : fcfg) (f0 : forest) (arg : option (list (list Qc)) * option nat) (h0 : heap) (e0 : env) (f1 : forest) (h1 : heap) (e1 : env) (f : forest).
Context (HF : forest_fit M P c f0 arg h0 e0 = Ok (f1, h1, e1)) (HU : used c h1 f1 f).
Context (data : list (list Qc)) (HD : fit_data f0 arg = Some data) (SR : some_rows c (length data)).

(** The trees' own answers. *)
Lemma votes_value x ps : votes f x ps -> map value_of ps = map (fun ct => tree_value ct x) (f_trees f).
Proof. intros V. unfold votes in V. induction V as [|ct p ts ps E V IH]; auto. cbn [map]. f_equal; auto. unfold tree_value. rewrite E. reflexivity. Qed.
Lemma votes_prob x ps j : votes f x ps -> map (fun p => prob_of p j) ps = map (fun ct => tree_prob ct x j) (f_trees f).
Proof. intros V. unfold votes in V. induction V as [|ct p ts ps E V IH]; auto. cbn [map]. f_equal; auto. unfold tree_prob. rewrite E. reflexivity. Qed.
Lemma votes_some x ps : votes f x ps -> ps <> [] -> f_trees f <> [].
Proof. intros V N E. unfold votes in V. rewrite E in V. inversion V. congruence. Qed.

Theorem forest_squared_error test : fc_class c = false -> fc_boosting c = false -> test <> [] ->
  (forall x y, In (x, y) test -> exists v f', forest_predict c f x = Ok (FReg v, f')) ->
  (forall x y ct, In (x, y) test -> In ct (f_trees f) -> exists v, answer (tree_predict (fst ct) (snd ct) x) = Ok (PReg v)) /\
  squared_error (forest_value c f) test =
    (mean (map (fun ct => squared_error (tree_value ct) test) (f_trees f)) -
     mean (map (fun p => variance (map (fun ct => tree_value ct (fst p)) (f_trees f))) test))%Qc /\
  (squared_error (forest_value c f) test <= mean (map (fun ct => squared_error (tree_value ct) test) (f_trees f)))%Qc /\
  exists ct, In ct (f_trees f) /\ (squared_error (forest_value c f) test <= squared_error (tree_value ct) test)%Qc.
Proof.
  intros IC BO NE H.
  assert (K : forall p, In p test -> f_trees f <> [] /\ forest_value c f (fst p) = mean (map (fun ct => tree_value ct (fst p)) (f_trees f))).
  { intros [x y] I. destruct (H x y I) as (v & f' & E). destruct (forest_mean M P c f0 arg h0 e0 f1 h1 e1 f HF HU data HD SR x v f' IC BO E) as (ps & V & N & EV & _).
    split; [eapply votes_some; eauto|]. unfold forest_value. cbn [fst]. rewrite E. cbn [answer]. rewrite EV. f_equal. eapply votes_value; eauto. }
  assert (TN : f_trees f <> []) by (destruct test as [|p test]; [contradiction|apply (K p); now left]).
  assert (MAIN : squared_error (forest_value c f) test =
    (mean (map (fun ct => squared_error (tree_value ct) test) (f_trees f)) -
     mean (map (fun p => variance (map (fun ct => tree_value ct (fst p)) (f_trees f))) test))%Qc).
  { unfold squared_error. rewrite (mean_swap (fun ct p => squared (tree_value ct (fst p)) (snd p))). rewrite <- mean_map_minus. apply mean_map_ext. intros p I. destruct (K p I) as [_ ->].
    rewrite squared_mean; [|intros Z; apply TN; destruct (f_trees f); [auto|discriminate]]. rewrite map_map. reflexivity. }
  assert (LE : (squared_error (forest_value c f) test <= mean (map (fun ct => squared_error (tree_value ct) test) (f_trees f)))%Qc).
  { rewrite MAIN. pose proof (mean_nonneg (fun p : list Qc * Qc => variance (map (fun ct => tree_value ct (fst p)) (f_trees f))) test (fun p _ => variance_nonneg _)) as Z. qlra. }
  split; [|split; [exact MAIN|split; [exact LE|exact (some_above _ _ _ TN LE)]]].
  intros x y ct I J. destruct (H x y I) as (v & f' & E). destruct (votes_of c f x _ f' E) as (ps & V & _).
  pose proof (votes_reg M P c f0 arg h0 e0 f1 h1 e1 f HF HU data HD SR x ps IC V) as F. clear -V F J. unfold votes in V. induction V as [|ct' p ts ps E V IH]; [contradiction|]. inversion F as [|? ? [w ->] F']; subst. destruct J as [<-|J]; eauto.
Qed.

Theorem forest_brier test classes : fc_class c = true -> good_classes (f_classes f0) -> f_ncl f0 = length (f_classes f0) -> test <> [] -> length classes = length (f_classes f0) ->
  (forall x y, In (x, y) test -> exists l avg f', forest_predict c f x = Ok (FClass l avg, f')) ->
  (forall x y ct, In (x, y) test -> In ct (f_trees f) -> exists l probs, answer (tree_predict (fst ct) (snd ct) x) = Ok (PClass l probs)) /\
  brier classes (forest_prob c f) test =
    (mean (map (fun ct => brier classes (tree_prob ct) test) (f_trees f)) -
     mean (map (fun p => total (map (fun j => variance (map (fun ct => tree_prob ct (fst p) j) (f_trees f))) (seq 0 (length classes)))) test))%Qc /\
  (brier classes (forest_prob c f) test <= mean (map (fun ct => brier classes (tree_prob ct) test) (f_trees f)))%Qc /\
  exists ct, In ct (f_trees f) /\ (brier classes (forest_prob c f) test <= brier classes (tree_prob ct) test)%Qc.
Proof.
  intros IC GC NC NE LC H.
  assert (K : forall p, In p test -> f_trees f <> [] /\ forall j, j < length classes -> forest_prob c f (fst p) j = mean (map (fun ct => tree_prob ct (fst p) j) (f_trees f))).
  { intros [x y] I. destruct (H x y I) as (l & avg & f' & E). destruct (forest_probabilities M P c f0 arg h0 e0 f1 h1 e1 f HF HU data HD SR x l avg f' IC GC NC E) as (ps & V & N & LA & EV & _).
    split; [eapply votes_some; eauto|]. intros j Hj. unfold forest_prob. cbn [fst]. rewrite E. cbn [answer]. rewrite <- LC in LA. rewrite (nth_error_nth _ _ _ (EV j ltac:(lia))). f_equal. eapply votes_prob; eauto. }
  assert (TN : f_trees f <> []) by (destruct test as [|p test]; [contradiction|apply (K p); now left]).
  assert (MAIN : brier classes (forest_prob c f) test =
    (mean (map (fun ct => brier classes (tree_prob ct) test) (f_trees f)) -
     mean (map (fun p => total (map (fun j => variance (map (fun ct => tree_prob ct (fst p) j) (f_trees f))) (seq 0 (length classes)))) test))%Qc).
  { unfold brier. rewrite (mean_swap (fun ct p => total (map (fun j => squared (tree_prob ct (fst p) j) (truth classes (snd p) j)) (seq 0 (length classes))))).
    rewrite <- mean_map_minus. apply mean_map_ext. intros p I. destruct (K p I) as [_ KJ].
    rewrite (mean_total_swap (fun ct j => squared (tree_prob ct (fst p) j) (truth classes (snd p) j))).
    tq.
    assert (X : forall (g h : nat -> Qc) l, (qsum (map g l) - qsum (map h l) = qsum (map (fun j => g j - h j) l))%Qc) by (intros g h; induction l as [|a l IH]; cbn [map qsum]; [ring|rewrite <- IH; ring]).
    rewrite X. apply qsum_map_ext. intros j Hj. apply in_seq in Hj. rewrite KJ by lia. rewrite squared_mean; [|intros Z; apply TN; destruct (f_trees f); [auto|discriminate]]. rewrite map_map. reflexivity. }
  assert (LE : (brier classes (forest_prob c f) test <= mean (map (fun ct => brier classes (tree_prob ct) test) (f_trees f)))%Qc).
  { rewrite MAIN. assert (Z : (0 <= mean (map (fun p => total (map (fun j => variance (map (fun ct => tree_prob ct (fst p) j) (f_trees f))) (seq 0 (length classes)))) test))%Qc).
    { apply mean_nonneg. intros p _. rewrite total_qsum. apply qsum_nonneg. intros q I. apply in_map_iff in I. destruct I as [j [<- _]]. apply variance_nonneg. }
    qlra. }
  split; [|split; [exact MAIN|split; [exact LE|exact (some_above _ _ _ TN LE)]]].
  intros x y ct I J. destruct (H x y I) as (l & avg & f' & E). destruct (votes_of c f x _ f' E) as (ps & V & _).
  pose proof (votes_class M P c f0 arg h0 e0 f1 h1 e1 f HF HU data HD SR x ps IC GC V) as F. clear -V F J. unfold votes in V. induction V as [|ct' p ts ps E V IH]; [contradiction|]. inversion F as [|? ? (w & q & -> & _) F']; subst. destruct J as [<-|J]; eauto.
Qed.
End Forest.

(** What the exact solver does for a regression tree with the Gini or entropy measure. *)
From Coq Require Import List Arith Bool ZArith QArith Qcanon Lia.
From Verif Require Import Base Num Rng Histogram Utils Criteria Solvers Spec SolverSpec NumFacts ListFacts HistFacts HistAdd CritFacts ReductionFacts MakeHist SampleFacts HistProps HistProps2 ExactFacts ExactTotal ExactProps.
Import ListNotations.
Local Open Scope nat_scope.

(** The same options with another measure. *)
Definition with_measure (c : scfg) (m : measure) : scfg :=
  {| s_class := s_class c; s_measure := m; s_bin := s_bin c; s_nb := s_nb c; s_minmax := s_minmax c; s_dd := s_dd c |}.

Theorem gini_regression c data labels W M mir e0 out e1 : solvable c data labels W -> s_class c = false ->
  solve_exactly M (with_measure c GINI) data labels mir e0 = Ok (out, e1) ->
  exists E, (forall f, f < W -> candidates (s_bin c) (nbins c data) (s_minmax c) data f (E f)) /\
    right_answer (reduction lump (combine data labels)) mir W E out.
Proof.
  intros S IC H. destruct (sv_first c data labels W S) as [r0 [Hr L0]].
  destruct (exact_core _ _ _ _ _ _ _ _ _ H (sv_labels _ _ _ _ S) Hr (sv_config c data labels W S)) as [mh [EM [HL [HE [XS [fs [ND [HF [NF Q]]]]]]]]].
  destruct (sv_candidates c data labels W S mh _ EM) as [_ HC]. change (bins_of (with_measure c GINI) (length data)) with (nbins c data) in *.
  assert (IM : imp_of M (with_measure c GINI) = lump) by (unfold imp_of; cbn [with_measure s_class s_measure]; rewrite IC; reflexivity). rewrite IM in XS.
  exists (edges_of (mh_hists mh)). split; [intros; now apply HC|].
  assert (LT : forall f b v, nth_error (edges_of (mh_hists mh) f) b = Some v -> f < W /\ b < nbins c data).
  { intros f b v N. assert (f < W).
    { rewrite <- L0, <- HL. apply edge_at_edges in N. destruct N as [h [e [N _]]]. apply nth_error_Some. congruence. }
    split; auto. destruct (HC f H0) as [_ L]. eapply Nat.lt_le_trans; [|exact L]. apply nth_error_Some. congruence. }
  destruct out as [f v r q|q]; cbn.
  - destruct XS as [b [H1 [H2 [H3 [H4 H5]]]]]. apply edge_at_edges in H1. destruct (LT _ _ _ H1). split; auto. exists b.
    split; auto. split; auto. split; auto. intros f' b' v' Hf' N. destruct (LT _ _ _ N). apply H5; auto. now apply edge_at_edges.
  - intros f' v' Hf' I. apply In_nth_error in I. destruct I as [b' N]. destruct (LT _ _ _ N). eapply XS; eauto. apply edge_at_edges; eauto.
Qed.

Lemma entropy_reductions M h bins pop r : h_class h = false -> get_impurity_reductions M ENTROPY h bins pop <> Ok r.
Proof.
  intros C H. unfold get_impurity_reductions in H. rewrite C in H. apply rbind_ok in H. destruct H as [[] [_ H]]. apply rbind_ok in H. destruct H as [l0 [_ H]].
  apply rbind_ok in H. destruct H as [q0 [_ H]]. apply rbind_ok in H. destruct H as [sd [_ H]]. discriminate.
Qed.
Lemma entropy_sample M data labels arms hs n pop gen r : (forall h, In h hs -> h_class h = false) -> arms <> [] -> sample_targets M ENTROPY data labels arms hs n pop gen <> Ok r.
Proof.
  intros HC NA H. unfold sample_targets in H. apply rbind_ok in H. destruct H as [[[[idcs ps] pop'] gen'] [_ H]]. apply rbind_ok in H. destruct H as [X [_ H]]. apply rbind_ok in H. destruct H as [Y [_ H]].
  apply rbind_ok in H. destruct H as [s [H _]].
  assert (FN : f2bin arms <> []).
  { unfold f2bin. destruct arms as [|x l]; [contradiction|]. cbn [fold_left group_add]. assert (G : forall l g, g <> [] -> fold_left (fun g a => group_add (fst a) (snd a) g) l g <> []).
    { clear. induction l as [|y l IH]; intros g N; cbn [fold_left]; auto. apply IH. destruct g as [|[f bs] g]; [contradiction|]. cbn. destruct (fst y =? f); discriminate. }
    apply G. discriminate. }
  destruct (f2bin arms) as [|fb l]; [contradiction|]. cbn [foldM] in H. apply rbind_ok in H. destruct H as [s1 [H _]]. unfold st_step in H. cbn [st_hists] in H.
  apply rbind_ok in H. destruct H as [h [Hh H]]. apply nth_res_ok in Hh. apply rbind_ok in H. destruct H as [h' [HA H]]. apply rbind_ok in H. destruct H as [rv [HR _]].
  destruct (hist_add_same _ _ _ _ HA) as [S1 _]. eapply entropy_reductions; [|exact HR]. rewrite S1. apply HC. eapply nth_error_In; eauto.
Qed.
Theorem entropy_regression c data labels W M mir e0 : solvable c data labels W -> s_class c = false -> forall r, solve_exactly M (with_measure c ENTROPY) data labels mir e0 <> Ok r.
Proof.
  intros S IC r H. destruct (sv_first c data labels W S) as [r0 [Hr L0]]. unfold solve_exactly in H. cbn [alloc] in H. cbv zeta in H. cbn [with_measure s_class s_measure s_bin s_nb s_minmax s_dd e_np] in H.
  apply rbind_ok in H. destruct H as [r0' [_ H]]. apply rbind_ok in H. destruct H as [mh [EM H]].
  destruct (make_histograms_inv _ _ _ _ _ _ _ _ _ _ Hr (sv_config c data labels W S) EM) as [[I1 _ _ _] _].
  apply rbind_ok in H. destruct H as [[] [_ H]]. apply rbind_ok in H. destruct H as [acc [EA H]]. apply rbind_ok in H. destruct H as [s [ES _]].
  eapply entropy_sample; [| |exact ES].
  - intros h I. apply In_nth_error in I. destruct I as [f I]. destruct (I1 f h I) as [C _ _ _ _]. congruence.
  - unfold accesses in EA. destruct (if negb (length (mh_not mh) =? 0) then mh_cons mh else _); [discriminate|]. injection EA as <-. discriminate.
Qed.

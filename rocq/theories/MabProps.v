(** The bandit solver, in terms of the data. *)
From Coq Require Import List Arith Bool ZArith QArith Qcanon Lia Permutation Sorted.
From Verif Require Import Base Num Rng Histogram Utils Criteria Solvers Spec SolverSpec NumFacts ListFacts HistFacts HistAdd CritFacts ReductionFacts MakeHist SampleFacts HistProps HistProps2 ExactFacts ExactTotal ExactProps DrawFacts MabFacts MabLoop.
Import ListNotations.
Local Open Scope nat_scope.

Lemma picked_rows data labels I : length labels = length data -> (forall i, In i I -> i < length data) ->
  picked data labels I = rows_at data labels I.
Proof. intros L H. unfold picked, rows_at. apply map_ext_in. intros i J. symmetry. apply combine_nth. auto. Qed.

(** The loop's static data and first state, as solve_mab builds them. *)
Definition mab_cfg (c : scfg) (eps : Qc) (repl : bool) (budget : option Z) (batch : nat) (data : list (list Qc)) (labels : list Qc) (mir : Qc) (W : nat) : mcfg :=
  {| mc_F := W; mc_B := s_nb c; mc_N := length data; mc_measure := s_measure c; mc_data := data;
     mc_labels := labels; mc_eps := eps; mc_repl := repl; mc_budget := budget; mc_batch := batch; mc_mir := mir |}.
Definition mab_init (c : scfg) (repl : bool) (data : list (list Qc)) (W : nat) (j : junk) (mh : mhstate) (gen : tape) : mstate :=
  {| ms_cand := if negb (length (mh_not mh) =? 0) then mh_cons mh else cells W (s_nb c);
     ms_est := upd_const (j_est j) (mh_not mh) PInf;
     ms_lcb := upd_const (j_lcb j) (mh_not mh) NInf;
     ms_ucb := upd_const (j_ucb j) (mh_not mh) PInf;
     ms_ns := fun _ _ => 0;
     ms_exact := upd_const (fun _ _ => false) (mh_not mh) true;
     ms_hists := mh_hists mh; ms_pop := if repl then None else Some (arange (length data)); ms_q := 0; ms_gen := gen |}.

Section Start.
Context (M : math) (c : scfg) (eps : Qc) (repl : bool) (budget : option Z) (batch : nat)
  (data : list (list Qc)) (labels : list Qc) (mir : Qc) (W : nat).
Context (S : solvable c data labels W) (NI : s_bin c <> IDENTITY) (HB : 1 <= batch).
Notation k := (mab_cfg c eps repl budget batch data labels mir W).
Notation B := (s_nb c).

Lemma mab_bins : nbins c data = B.
Proof. unfold nbins. destruct (s_bin c); auto. contradiction. Qed.

Context (mh : mhstate) (np : tape)
  (EM : make_histograms (s_class c) data labels (s_minmax c) (s_dd c) (s_bin c) B np = Ok mh).
Notation hs := (mh_hists mh).

Lemma mab_static : static k hs (s_class c) (if s_class c then unique labels else []).
Proof.
  destruct (sv_first _ _ _ _ S) as [r0 [Hr L0]].
  pose proof (sv_config _ _ _ _ S) as GC. change (bins_of c (length data)) with (nbins c data) in GC. rewrite mab_bins in GC.
  destruct (make_histograms_inv _ _ _ _ _ _ _ _ _ _ Hr GC EM) as [[I1 I2 I3 _] HL].
  pose proof EM as EM'. rewrite <- mab_bins in EM'. destruct (sv_candidates _ _ _ _ S mh np EM') as [_ HC].
  constructor; cbn; auto.
  - apply S.
  - destruct S as [_ NE _ _ _ _ _]. destruct data; [contradiction|cbn; lia].
  - congruence.
  - intros f h E. rewrite <- mab_bins. assert (f < W) by (rewrite <- L0, <- HL; apply nth_error_Some; congruence).
    destruct (HC f H) as [_ L]. unfold edges_of in L. rewrite E in L. destruct (I1 f h E) as [_ _ _ [_ Fr] _].
    destruct (h_edges h) as [e|]; [|lia]. destruct Fr as [<- _]. exact L.
Qed.

Lemma mab_arm f b : is_arm hs f b <-> exists v, nth_error (edges_of hs f) b = Some v.
Proof.
  rewrite (arm_edge_at _ _ _ _ mab_static). split; intros [v H]; exists v; now apply edge_at_edges.
Qed.
Lemma mab_not : mh_not mh = not_of B hs /\ mh_cons mh = cons_of hs /\ length hs = W.
Proof.
  destruct (sv_first _ _ _ _ S) as [r0 [Hr L0]].
  pose proof (sv_config _ _ _ _ S) as GC. change (bins_of c (length data)) with (nbins c data) in GC. rewrite mab_bins in GC.
  destruct (make_histograms_inv _ _ _ _ _ _ _ _ _ _ Hr GC EM) as [[I1 I2 I3 _] HL]. split; auto. split; auto. congruence.
Qed.
Lemma mab_notin f b : f < W -> b < B -> (In (f, b) (mh_not mh) <-> ~ is_arm hs f b).
Proof.
  intros Hf Hb. destruct mab_not as [-> [_ L]]. rewrite not_of_in. unfold is_arm. split.
  - intros [h [E H]] [h' [E' H']]. rewrite E in E'. injection E' as <-. lia.
  - intros NA. destruct (nth_error hs f) as [h|] eqn:E; [|apply nth_error_None in E; lia]. exists h. split; auto.
    split; auto. destruct (le_lt_dec (h_nb h) b); auto. exfalso. apply NA. eauto.
Qed.

Context (j : junk) (gen : tape).
Notation s0 := (mab_init c repl data W j mh gen).

Lemma mab_cands f b : In (f, b) (ms_cand s0) <-> is_arm hs f b.
Proof.
  cbn [ms_cand mab_init]. destruct mab_not as [EN [EC L]].
  assert (HA : (if negb (length (mh_not mh) =? 0) then mh_cons mh else cells W B) = arms hs W B (not_of B hs) (cons_of hs))
    by (unfold arms; rewrite EN, EC; reflexivity).
  rewrite HA. rewrite (arms_in hs W B f b L).
  - unfold is_arm. split; [intros [_ H]; exact H|]. intros H. split; auto. apply (arm_range k hs _ _ mab_static f b H).
  - intros f' b' I. unfold arms in I. destruct (negb (length (not_of B hs) =? 0)).
    + apply cons_of_in in I. apply (arm_range k hs _ _ mab_static f' b' I).
    + now apply cells_in in I.
Qed.
Lemma mab_cand_shape : by_feature (ms_cand s0) /\ NoDup (ms_cand s0).
Proof.
  cbn [ms_cand mab_init]. destruct mab_not as [-> [-> L]].
  split; [apply (arms_by_feature hs W B)|apply (arms_nodup hs W B)].
Qed.

Lemma mab_minv : minv M k hs (s_class c) (if s_class c then unique labels else []) s0.
Proof.
  assert (PO : pop_ok k (ms_pop s0)).
  { cbn [ms_pop mab_init]. destruct repl; [reflexivity|]. split; [reflexivity|]. split; [apply arange_nodup|]. intros i. cbn. apply arange_in. }
  destruct mab_cand_shape as [C1 C2]. constructor; auto.
  - apply hists_fresh; auto. apply mab_static.
  - intros f b I. apply mab_cands in I. split; auto. cbn [ms_exact mab_init].
    destruct (arm_range k hs _ _ mab_static f b I). rewrite upd_const_out; auto. rewrite mab_notin by auto. tauto.
  - intros f b Hf Hb X. cbn [ms_exact mab_init] in X.
    destruct (in_dec cell_eq_dec (f, b) (mh_not mh)) as [I|I]; [rewrite upd_const_in in X by auto; discriminate|].
    rewrite mab_notin in I by auto. destruct (arm_dec hs f b); tauto.
  - intros f b Hf Hb NA. cbn [ms_est mab_init]. apply upd_const_in. now apply mab_notin.
  - intros f b v A X. exfalso. cbn [ms_exact mab_init] in X. destruct (arm_range k hs _ _ mab_static f b A).
    rewrite upd_const_out in X by (rewrite mab_notin by auto; tauto). discriminate.
  - cbn. intros R. rewrite R. cbn. rewrite arange_length. lia.
  - cbn [ms_q mab_init]. lia.
  - cbn [ms_ns mab_init]. intros _ f b _ _. pose proof (sc_pos _ _ _ _ mab_static) as P. cbn [mc_N mab_cfg] in *. split; [lia|]. intros _. exact P.
Qed.
Lemma mab_initial : initial hs s0.
Proof.
  split; [|reflexivity]. intros f b A. split; [now apply mab_cands|].
  apply (mi_cand _ _ _ _ _ _ mab_minv). now apply mab_cands.
Qed.
Lemma mab_in_budget : in_budget k s0.
Proof. intros b E. cbn. lia. Qed.

Lemma mab_count : length (ms_cand s0) = arm_count W (edges_of hs).
Proof.
  destruct mab_cand_shape as [_ ND].
  assert (G : forall n a (E : nat -> list Qc), length (concat (map (fun f => map (fun b => (f, b)) (seq 0 (length (E f)))) (seq a n))) = list_sum (map (fun f => length (E f)) (seq a n))).
  { induction n; intros; cbn; auto. rewrite app_length, map_length, seq_length, IHn. reflexivity. }
  unfold arm_count. rewrite <- G. apply Permutation_length, NoDup_Permutation; auto.
  - assert (ND' : forall n a (E : nat -> list Qc), NoDup (concat (map (fun f => map (fun b => (f, b)) (seq 0 (length (E f)))) (seq a n)))); [|apply ND'].
    clear. induction n as [|n IH]; intros a E; cbn; [constructor|].
    assert (D : forall l1 l2 : list (nat * nat), NoDup l1 -> NoDup l2 -> (forall x, In x l1 -> ~ In x l2) -> NoDup (l1 ++ l2)).
    { induction l1; intros l2 H1 H2 H3; cbn; auto. inversion H1; subst. constructor.
      - intro I. apply in_app_or in I. destruct I; [contradiction|]. apply (H3 a0); auto. now left.
      - apply IHl1; auto. intros x I. apply H3. now right. }
    apply D; auto.
    + apply FinFun.Injective_map_NoDup; [|apply seq_NoDup]. intros x y Q. now injection Q.
    + intros x I1 I2. apply in_map_iff in I1. destruct I1 as [b [<- _]]. apply in_concat in I2. destruct I2 as [l [I2 I3]].
      apply in_map_iff in I2. destruct I2 as [f [<- I2]]. apply in_map_iff in I3. destruct I3 as [b' [Q _]]. injection Q as -> _. apply in_seq in I2. lia.
  - intros [f b]. rewrite mab_cands, mab_arm. rewrite in_concat. split.
    + intros [v H]. assert (Hb : b < length (edges_of hs f)) by (apply nth_error_Some; congruence).
      exists (map (fun b => (f, b)) (seq 0 (length (edges_of hs f)))). split.
      * apply in_map_iff. exists f. split; auto. apply in_seq.
        assert (A : is_arm hs f b) by (apply mab_arm; eauto). apply (arm_range k hs _ _ mab_static) in A. cbn in A. lia.
      * apply in_map_iff. exists b. split; auto. apply in_seq. lia.
    + intros [l [I1 I2]]. apply in_map_iff in I1. destruct I1 as [f' [<- I1]]. apply in_map_iff in I2. destruct I2 as [b' [Q I2]].
      injection Q as -> ->. apply in_seq in I2. destruct (nth_error (edges_of hs f) b) eqn:Z; [eauto|]. apply nth_error_None in Z. lia.
Qed.
Lemma mab_busy : busy k hs = length (busy_features W (edges_of hs)).
Proof.
  unfold busy, busy_features. cbn [mc_F mab_cfg]. f_equal. apply filter_ext_in. intros f I. unfold edges_of.
  destruct (nth_error hs f) as [h|] eqn:E; auto. destruct (sc_hist _ _ _ _ mab_static f h E) as [_ _ _ [_ Fr] _].
  destruct (h_edges h) as [e|] eqn:Ee.
  - destruct Fr as [<- _]. destruct e; reflexivity.
  - rewrite Fr. reflexivity.
Qed.
End Start.

(** ** Decomposition of a run *)
Lemma choice_one_in {A} (l : list A) t a t' : choice_one l t = Ok (a, t') -> In a l.
Proof.
  unfold choice_one. destruct l as [|x l]; [discriminate|]. destruct (draw t) as [d u]. intros H.
  apply ok_pair_inv in H. destruct H as [<- _]. apply nth_In. apply Nat.mod_upper_bound. discriminate.
Qed.
Lemma choice_one_total {A} (l : list A) t : l <> [] -> exists a t', choice_one l t = Ok (a, t') /\ In a l.
Proof.
  intros H. assert (E : exists a t', choice_one l t = Ok (a, t')).
  { unfold choice_one. destruct l as [|x l]; [contradiction|]. destruct (draw t). eauto. }
  destruct E as [a [t' E]]. exists a, t'. split; auto. eapply choice_one_in; eauto.
Qed.

Lemma mab_run M c eps repl budget batch data labels mir W e0 out e1 :
  solvable c data labels W -> solve_mab M c eps repl budget batch data labels mir e0 = Ok (out, e1) ->
  s_bin c <> IDENTITY /\
  exists mh s best f b h v e,
    make_histograms (s_class c) data labels (s_minmax c) (s_dd c) (s_bin c) (s_nb c) (e_np e0) = Ok mh /\
    mab_loop M (mab_cfg c eps repl budget batch data labels mir W) (mab_fuel W (s_nb c) (length data))
      (mab_init c repl data W (e_mem e0 (e_calls e0)) mh (e_gen e0)) = Ok s /\
    best_cells W (s_nb c) (ms_est s) = Ok best /\ In (f, b) best /\
    nth_error (ms_hists s) f = Some h /\ h_edges h = Some e /\ nth_error e b = Some v /\
    out = (if xlt (ms_est s f b) (Fin mir) then Found f v (ms_est s f b) (ms_q s) else NoSplit (ms_q s)) /\
    e1 = {| e_gen := ms_gen s; e_np := mh_np mh; e_py := e_py e1; e_mem := e_mem e0; e_calls := S (e_calls e0) |}.
Proof.
  intros S H. destruct (sv_first _ _ _ _ S) as [r0 [Hr L0]]. unfold solve_mab in H. cbn [alloc] in H. cbv zeta in H.
  apply nth_res_ok in Hr. rewrite Hr in H. cbn [rbind] in H. rewrite L0 in H. cbn [e_np e_gen e_py] in H.
  assert (NI : s_bin c <> IDENTITY) by (intros Z; rewrite Z in H; discriminate). split; auto.
  assert (H' : (do mh <- make_histograms (s_class c) data labels (s_minmax c) (s_dd c) (s_bin c) (s_nb c) (e_np e0);
     do _ <- guard (in_range W (s_nb c) (mh_not mh)) IndexError;
     do s <- mab_loop M (mab_cfg c eps repl budget batch data labels mir W) (mab_fuel W (s_nb c) (length data)) (mab_init c repl data W (e_mem e0 (e_calls e0)) mh (e_gen e0));
     do best <- best_cells W (s_nb c) (ms_est s);
     do bp <- choice_one best (e_py e0);
     do r <- finish (ms_hists s) (ms_est s) mir (fst bp) (ms_q s);
     Ok (r, {| e_gen := ms_gen s; e_np := mh_np mh; e_py := snd bp; e_mem := e_mem e0; e_calls := Datatypes.S (e_calls e0) |})) = Ok (out, e1)).
  { destruct (s_bin c); try contradiction; exact H. }
  clear H. apply rbind_ok in H'. destruct H' as [mh [EM H]]. apply rbind_ok in H. destruct H as [[] [_ H]].
  apply rbind_ok in H. destruct H as [s [EL H]]. apply rbind_ok in H. destruct H as [best [EB H]].
  apply rbind_ok in H. destruct H as [[[f b] py] [EC H]]. apply rbind_ok in H. destruct H as [r [EF H]].
  apply ok_pair_inv in H. destruct H as [-> <-]. cbn [fst snd] in *.
  unfold finish in EF. cbn [fst snd] in EF. apply rbind_ok in EF. destruct EF as [h [E1 EF]]. apply rbind_ok in EF. destruct EF as [e [E2 EF]].
  apply rbind_ok in EF. destruct EF as [v [E3 EF]]. injection EF as <-.
  apply nth_res_ok in E1. apply opt_res_ok in E2. apply nth_res_ok in E3.
  exists mh, s, best, f, b, h, v, e. repeat (split; [first [assumption|reflexivity]|]).
  split. { exact (choice_one_in _ _ _ _ EC). }
  repeat (split; [first [assumption|reflexivity]|]). reflexivity.
Qed.

Lemma mab_run_total M c eps repl budget batch data labels mir W e0 mh s :
  solvable c data labels W -> s_bin c <> IDENTITY ->
  make_histograms (s_class c) data labels (s_minmax c) (s_dd c) (s_bin c) (s_nb c) (e_np e0) = Ok mh ->
  in_range W (s_nb c) (mh_not mh) = true ->
  mab_loop M (mab_cfg c eps repl budget batch data labels mir W) (mab_fuel W (s_nb c) (length data))
      (mab_init c repl data W (e_mem e0 (e_calls e0)) mh (e_gen e0)) = Ok s ->
  (exists best, best_cells W (s_nb c) (ms_est s) = Ok best /\ best <> [] /\
     forall f b, In (f, b) best -> exists h e v, nth_error (ms_hists s) f = Some h /\ h_edges h = Some e /\ nth_error e b = Some v) ->
  exists out e1, solve_mab M c eps repl budget batch data labels mir e0 = Ok (out, e1).
Proof.
  intros S NI EM IR EL [best [EB [NB HF]]]. destruct (sv_first _ _ _ _ S) as [r0 [Hr L0]].
  unfold solve_mab. cbn [alloc]. cbv zeta. apply nth_res_ok in Hr. rewrite Hr. cbn [rbind]. rewrite L0. cbn [e_np e_gen e_py].
  assert (G : exists out e1, (do mh <- make_histograms (s_class c) data labels (s_minmax c) (s_dd c) (s_bin c) (s_nb c) (e_np e0);
     do _ <- guard (in_range W (s_nb c) (mh_not mh)) IndexError;
     do s <- mab_loop M (mab_cfg c eps repl budget batch data labels mir W) (mab_fuel W (s_nb c) (length data)) (mab_init c repl data W (e_mem e0 (e_calls e0)) mh (e_gen e0));
     do best <- best_cells W (s_nb c) (ms_est s);
     do bp <- choice_one best (e_py e0);
     do r <- finish (ms_hists s) (ms_est s) mir (fst bp) (ms_q s);
     Ok (r, {| e_gen := ms_gen s; e_np := mh_np mh; e_py := snd bp; e_mem := e_mem e0; e_calls := Datatypes.S (e_calls e0) |})) = Ok (out, e1)).
  { rewrite EM. cbn [rbind]. rewrite IR. cbn [guard rbind]. rewrite EL. cbn [rbind]. rewrite EB. cbn [rbind].
    destruct (choice_one_total best (e_py e0) NB) as [[f b] [t [EC I]]]. rewrite EC. cbn [rbind fst snd].
    destruct (HF f b I) as [h [e [v [H1 [H2 H3]]]]].
    unfold finish. cbn [fst snd]. apply nth_res_ok in H1. rewrite H1. cbn [rbind]. rewrite H2. cbn [opt_res rbind].
    apply nth_res_ok in H3. rewrite H3. cbn [rbind]. eauto. }
  destruct (s_bin c); try contradiction; exact G.
Qed.

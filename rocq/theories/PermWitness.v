(** Runs behind the examples and refutations of PropsPerm.v. *)
From Coq Require Import List Arith Bool ZArith QArith Qcanon Lia Permutation.
From Verif Require Import Base Num Rng Histogram Utils Criteria Solvers Tree Forest Samples Permutation.
From Verif Require Import Spec TreeSpec ForestSpec PermSpec NumFacts ListFacts DrawFacts TreeWitness ForestWitness PermFacts PermLife.
Import ListNotations.
Local Open Scope nat_scope.

(** The third column is constant. *)
Definition X7 : list (list Qc) := map (fun r => r ++ [z 5]) X6.
Definition pc0 (cl : bool) (sc : iscore) : pcfg :=
  {| pc_data := X7; pc_labels := 0; pc_depth := DFin 2; pc_forests := 2; pc_trees := 2; pc_class := cl; pc_solver := EXACT; pc_metric := JACCARD;
     pc_budget := None; pc_fsub := FSNone; pc_leaves := None; pc_eps := 0%Qc; pc_score := sc |}.
Definition prun (P : prng) (cl : bool) (sc : iscore) (Y : list Qc) : res (list (list xn) * pstate * heap * env) :=
  do se <- perm_new P (pc0 cl sc) 4 env0; get_importance_array M0 P (pc0 cl sc) (fst se) (heap_of Y) (snd se).

(** ** Shuffling *)
Lemma pick_all n gen : Permutation (fst (pick_k n (arange n) gen)) (seq 0 n) /\ length (fst (pick_k n (arange n) gen)) = n.
Proof.
  destruct (pick_k_spec n (arange n) gen) as (rest & Q & L); [unfold arange; rewrite seq_length; lia|]. split; auto. pose proof (Permutation_length Q) as E. unfold arange in *. rewrite seq_length, app_length, L in E.
  assert (rest = []) as -> by (destruct rest; cbn in *; [auto|lia]). rewrite app_nil_r in Q. now apply Permutation_sym.
Qed.
Lemma shuffle_spec W data f gen : rectangular W data -> f < W -> let d := fst (shuffle_column data f gen) in
  rectangular W d /\ length d = length data /\ Permutation (feature_values f d) (feature_values f data) /\ forall g, g <> f -> feature_values g d = feature_values g data.
Proof.
  intros R FW. unfold shuffle_column. pose proof (pick_all (length data) gen) as [PP L]. destruct (pick_k (length data) (arange (length data)) gen) as [p gen']. cbn [fst] in *. cbv zeta.
  assert (E : forall l q, length q = length l -> rectangular W l -> let d := map (fun ri => set_nth f (nth f (nth (snd ri) data []) 0%Qc) (fst ri)) (combine l q) in
     rectangular W d /\ length d = length l /\ feature_values f d = map (fun i => nth f (nth i data []) 0%Qc) q /\ forall g, g <> f -> feature_values g d = feature_values g l).
  { clear PP L p. induction l as [|r l IH]; intros [|i q] LQ RL; try discriminate; cbn [combine map fst snd] in *.
    - split; [intros r []|]. auto.
    - assert (LR : length r = W) by (apply RL; now left). destruct (IH q) as (A & B & C & D); [now injection LQ|intros x X; apply RL; now right|]. split; [|split; [|split]].
      + intros x [<-|X]; [rewrite set_nth_length; auto|apply A; auto].
      + cbn. now rewrite B.
      + unfold feature_values in *. cbn [map]. rewrite C. f_equal. apply nth_error_nth. rewrite set_nth_nth, Nat.eqb_refl. destruct (nth_error r f) eqn:N; auto. apply nth_error_None in N. lia.
      + intros g NG. unfold feature_values in *. cbn [map]. rewrite (D g NG). f_equal. destruct (nth_error r g) as [x|] eqn:N.
        * rewrite (nth_error_nth _ _ _ N). apply nth_error_nth. rewrite set_nth_nth. destruct (Nat.eqb_spec g f); [contradiction|exact N].
        * assert (N' : nth_error (set_nth f (nth f (nth i data []) 0%Qc) r) g = None) by (rewrite set_nth_nth; destruct (Nat.eqb_spec g f); [contradiction|exact N]). apply nth_error_None in N, N'. now rewrite !nth_overflow. }
  destruct (E data p L R) as (A & B & C & D). split; auto. split; auto. split; auto. rewrite C. assert (F : feature_values f data = map (fun i => nth f (nth i data []) 0%Qc) (seq 0 (length data))).
  { unfold feature_values. clear. rewrite <- (map_id data) at 1. apply list_ext. intros i. rewrite map_map, !nth_error_map. destruct (nth_error data i) as [r|] eqn:N.
    - assert (IL : i < length data) by (apply nth_error_Some; congruence). rewrite (nth_error_nth' (seq 0 (length data)) 0) by (rewrite seq_length; auto). rewrite seq_nth by auto. cbn. now rewrite (nth_error_nth _ _ _ N).
    - apply nth_error_None in N. assert (Z : nth_error (seq 0 (length data)) i = None) by (apply nth_error_None; now rewrite seq_length). now rewrite Z. }
  rewrite F. now apply Permutation_map.
Qed.
Lemma shuffle_constant W data f gen v : rectangular W data -> f < W -> (forall x, In x (feature_values f data) -> x = v) -> fst (shuffle_column data f gen) = data.
Proof.
  intros R FW C. destruct (shuffle_spec W data f gen R FW) as (A & B & D & E). cbv zeta in *. set (d := fst (shuffle_column data f gen)) in *. clearbody d.
  apply nth_ext with (d := []) (d' := []); auto. intros i I. assert (RI : length (nth i d []) = W) by (apply A, nth_In; auto). assert (RI' : length (nth i data []) = W) by (apply R, nth_In; lia).
  apply nth_ext with (d := 0%Qc) (d' := 0%Qc); [congruence|]. intros g _. assert (K : forall t : list (list Qc), nth g (nth i t []) 0%Qc = nth i (feature_values g t) 0%Qc).
  { intros t. unfold feature_values. destruct (Nat.lt_ge_cases i (length t)) as [L|L]; [|rewrite (nth_overflow t), (nth_overflow (map _ t)) by (rewrite ?map_length; auto); now destruct g].
    rewrite (nth_indep (map _ t) 0%Qc ((fun r => nth g r 0%Qc) [])) by (rewrite map_length; auto). rewrite (map_nth (fun r => nth g r 0%Qc)). reflexivity. }
  rewrite !K. destruct (Nat.eq_dec g f) as [->|N]; [|now rewrite (E g N)].
  assert (X : In (nth i (feature_values f d) 0%Qc) (feature_values f d)) by (apply nth_In; unfold feature_values; now rewrite map_length). apply (Permutation_in _ D) in X. rewrite (C _ X). symmetry. apply C. apply nth_In. unfold feature_values. rewrite map_length. lia.
Qed.

(** ** Runs *)
Lemma constant_column_scored : exists P M c seed h e s e0 rows s1 h1 e1 j row,
  pc_score c = IPermutation /\ perm_new P c seed e = Ok (s, e0) /\ get_importance_array M P c s h e0 = Ok (rows, s1, h1, e1) /\
  (forall x y, In x (feature_values j (pc_data c)) -> In y (feature_values j (pc_data c)) -> x = y) /\ nth_error rows 0 = Some row /\ nth_error row j = Some (Fin (z 5)).
Proof.
  exists P2, M0, (pc0 true IPermutation), 4, (heap_of Y6), env0.
  assert (K : check (perm_new P2 (pc0 true IPermutation) 4 env0) (fun a => check (get_importance_array M0 P2 (pc0 true IPermutation) (fst a) (heap_of Y6) (snd a)) (fun b =>
     match nth_error (fst (fst (fst b))) 0 with Some row => match nth_error row 2 with Some (Fin v) => qeq v (z 5) | _ => false end | None => false end)) = true) by (vm_compute; reflexivity).
  take K. take K. destruct x as [s e0], x0 as [[[rows s1] h1] e1]. cbn [fst snd] in *. destruct (nth_error rows 0) as [row|] eqn:RW; [|discriminate K]. destruct (nth_error row 2) as [[v| | |]|] eqn:V; try discriminate K. apply qeq_spec in K. subst v.
  exists s, e0, rows, s1, h1, e1, 2, row. split; [reflexivity|]. split; [assumption|]. split; [assumption|]. split; [|split; assumption].
  intros x y I J. vm_compute in I, J. repeat (destruct I as [I|I]; [|]); repeat (destruct J as [J|J]; [|]); try destruct I; try destruct J; reflexivity.
Qed.

(** ** An order that sorts (stable) *)
Fixpoint ins (l : list Qc) (i : nat) (acc : list nat) : list nat :=
  match acc with [] => [i] | j :: t => if qle (nth i l 0%Qc) (nth j l 0%Qc) then i :: acc else j :: ins l i t end.
Definition argsort0 (l : list Qc) : list nat := fold_right (ins l) [] (seq 0 (length l)).
Lemma ins_perm l i acc : Permutation (ins l i acc) (i :: acc).
Proof. induction acc as [|j t IH]; cbn; auto. destruct (qle _ _); auto. eapply Permutation_trans; [apply perm_skip, IH|apply perm_swap]. Qed.
Lemma ins_sorted l i acc : Sorted.StronglySorted Qcle (map (fun i => nth i l 0%Qc) acc) -> Sorted.StronglySorted Qcle (map (fun i => nth i l 0%Qc) (ins l i acc)).
Proof.
  induction acc as [|j t IH]; cbn; intros S; [repeat constructor|]. inversion S as [|? ? S1 S2]; subst. destruct (qle (nth i l 0%Qc) (nth j l 0%Qc)) eqn:E; cbn.
  - apply qle_spec in E. constructor; auto. constructor; auto. rewrite Forall_forall in *. intros x I. eapply Qcle_trans; eauto.
  - apply qle_false in E. constructor; auto. rewrite Forall_forall in *. intros x I. apply in_map_iff in I. destruct I as [k [<- I]]. apply (Permutation_in _ (ins_perm l i t)) in I. destruct I as [<-|I]; [now apply Qclt_le_weak|]. apply S2. apply in_map_iff. eauto.
Qed.
Lemma argsort0_sorts : sorts argsort0.
Proof.
  intros l. unfold argsort0. generalize (seq 0 (length l)). intros s. split.
  - induction s as [|i s IH]; cbn; auto. eapply Permutation_trans; [apply ins_perm|]. now constructor.
  - induction s as [|i s IH]; cbn; [constructor|]. now apply ins_sorted.
Qed.

Definition I3 : list (list Qc) := [[z 3; z 1; z 0]; [z 2; z 1; z 0]; [z 1; z 2; z 0]].
Lemma freq_ex : rectangular 3 I3 /\ 2 <= length I3 /\ (exists row j, In row I3 /\ selects argsort0 1 row j) /\ check (stability_freq argsort0 I3 1%Z) (fun v => xeq v (Fin 0)) = true.
Proof.
  split; [intros r [<-|[<-|[<-|[]]]]; reflexivity|]. split; [cbn; lia|]. split; [|vm_compute; reflexivity]. exists [z 3; z 1; z 0], 0. split; [now left|]. split; [vm_compute; auto|]. apply qle_spec. vm_compute. reflexivity.
Qed.
Lemma freq_nan : exists order imp k W, sorts order /\ rectangular W imp /\ 2 <= length imp /\ k < W /\ (forall r r' j, In r imp -> In r' imp -> (selects order k r j <-> selects order k r' j)) /\ stability_freq order imp (Z.of_nat k) = Ok NaN.
Proof.
  exists argsort0, [[z (-1); z (-2)]; [z (-2); z (-1)]], 1, 2. split; [apply argsort0_sorts|]. split; [intros r [<-|[<-|[]]]; reflexivity|]. split; [cbn; lia|]. split; [lia|]. split; [|vm_compute; reflexivity].
  assert (N : forall r j, In r [[z (-1); z (-2)]; [z (-2); z (-1)]] -> ~ selects argsort0 1 r j). { intros r j I [S1 S2]. destruct I as [<-|[<-|[]]]; vm_compute in S1; destruct S1 as [<-|[]]; apply qle_spec in S2; vm_compute in S2; discriminate S2. }
  intros r r' j I I'. split; intros S; exfalso; [exact (N r j I S)|exact (N r' j I' S)].
Qed.
Lemma identical_not_one : exists v, ranking (length v) v /\ 2 <= length v /\ (forall q, pairwise_stability JACCARD v v = Ok q -> q <> 1%Qc) /\ (forall q, pairwise_stability KUNCHEVA v v = Ok q -> (q < 0)%Qc).
Proof.
  exists [2; 1; 3]. split; [apply perm_swap|]. split; [cbn; lia|]. split.
  - intros q H. rewrite jaccard_self in H by discriminate. injection H as <-. discriminate.
  - intros q H. destruct (kuncheva_self [2; 1; 3]) as (q' & E & L); [repeat constructor; cbn; intuition lia|cbn; lia|]. rewrite E in H. injection H as <-. exact L.
Qed.
Lemma prun_reach : exists s rows s1 h1 e1, perm_reach M0 P1 (pc0 true IImpurity) s /\ get_importance_array M0 P1 (pc0 true IImpurity) s (heap_of Y6) env0 = Ok (rows, s1, h1, e1) /\
  exists row v, nth_error rows 0 = Some row /\ nth_error row 0 = Some v /\ xlt (Fin 0) v = true /\ perm_reach M0 P1 (pc0 true IImpurity) s1 /\ exists rows2 s2 h2 e2, get_importance_array M0 P1 (pc0 true IImpurity) s1 h1 e1 = Ok (rows2, s2, h2, e2) /\ length rows2 = 4.
Proof.
  assert (K : check (perm_new P1 (pc0 true IImpurity) 4 env0) (fun a => check (get_importance_array M0 P1 (pc0 true IImpurity) (fst a) (heap_of Y6) env0) (fun b =>
     match nth_error (fst (fst (fst b))) 0 with Some row => match nth_error row 0 with Some v => xlt (Fin 0) v | _ => false end | None => false end &&
     check (get_importance_array M0 P1 (pc0 true IImpurity) (snd (fst (fst b))) (snd (fst b)) (snd b)) (fun d => length (fst (fst (fst d))) =? 4))) = true) by (vm_compute; reflexivity).
  take K. take K. destruct x as [s e0], x0 as [[[rows s1] h1] e1]. cbn [fst snd] in *. apply andb_prop in K. destruct K as [K1 K]. take K. destruct x as [[[rows2 s2] h2] e2]. cbn [fst snd] in *. apply Nat.eqb_eq in K.
  destruct (nth_error rows 0) as [row|] eqn:RW; [|discriminate K1]. destruct (nth_error row 0) as [v|] eqn:V; [|discriminate K1]. exists s, rows, s1, h1, e1. assert (R : perm_reach M0 P1 (pc0 true IImpurity) s) by (eapply reach_new; eauto).
  split; auto. split; auto. exists row, v. split; auto. split; auto. split; auto. split; [eapply reach_array; eauto|]. exists rows2, s2, h2, e2. auto.
Qed.

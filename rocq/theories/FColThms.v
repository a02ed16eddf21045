(** Forests on tables with one more column, or with only the columns in use. *)
From Coq Require Import List Arith Bool ZArith QArith Qcanon Lia Permutation Sorted.
From Verif Require Import Base Num Rng Histogram Utils Criteria Solvers Tree Forest Spec SolverSpec TreeSpec InvarSpec ForestSpec FInvarSpec ColSpec FColSpec NumFacts ListFacts TreeThms ForestMore ColThms ForestCol.
Import ListNotations.
Local Open Scope nat_scope.

Lemma forest_all_columns c f cl : forest_columns c f -> all_columns (tree_cfg c cl None).
Proof.
  intros ((EX & BT) & FS & _). split; [exact EX|]. split; [cbn; tauto|]. split; [|split; [exact FS|reflexivity]].
  unfold bins_ok. cbn. destruct BT as [->|[-> BT]]; auto.
Qed.

(** ** One more column *)
Section Wide.
Context (M : math) (P : prng) (c : fcfg) (f f' : forest) (arg arg' : option (list (list Qc)) * option nat) (data : list (list Qc)) (x : list Qc) (W k : nat) (h : heap) (e e' : env) (f1 : forest) (h1 : heap) (e1 : env).
Context (T : forest_trainable c f arg h data W) (FC : forest_columns c f) (SC : same_call f f' arg arg' (widen x data)) (LX : length x = length data) (NQ : e_np e' = e_np e) (KW : k < W).
Context (SHADOW : fc_bin c = IDENTITY /\ ((forall i j, i < length data -> j < length data -> (cell data i k <= cell data j k)%Qc -> (nth i x 0 <= nth j x 0)%Qc) \/
     (forall i j, i < length data -> j < length data -> (cell data i k <= cell data j k)%Qc -> (nth j x 0 <= nth i x 0)%Qc)) \/
  exists s d, (0 <= s)%Qc /\ forall i, i < length data -> nth i x 0%Qc = (s * cell data i k + d)%Qc).
Context (FIT : forest_fit M P c f arg h e = Ok (f1, h1, e1)).
Definition longer (r r' : list Qc) : Prop := length r = W /\ exists v, r' = r ++ [v].
Lemma widen_rel d y : rectangular W d -> length y = length d -> Forall2 longer d (widen y d).
Proof.
  unfold widen. revert y. induction d as [|r d IH]; intros [|v y] RC L; cbn in *; try discriminate; constructor.
  - split; [apply RC; now left|eauto].
  - apply IH; [intros q Q; apply RC; now right|lia].
Qed.
Lemma wide_forest : exists f1' e1', forest_fit M P c f' arg' h e' = Ok (f1', h1, e1') /\ e_np e1' = e_np e1 /\ col_forest (fun k => k) f1 f1' /\
  (forall r v, length r = W -> answer (forest_predict c f1' (r ++ [v])) = answer (forest_predict c f1 r)) /\
  (forall sc f2, get_oob_score c f1 h1 None = Ok (sc, f2) -> exists f2', get_oob_score c f1' h1 None = Ok (sc, f2')) /\
  (f_mdg f1 = None -> forall arr f2, calculate_mdi f1 = Ok (arr, f2) -> exists f2', calculate_mdi f1' = Ok (arr ++ [Fin 0%Qc], f2')).
Proof.
  pose proof (ft_rect _ _ _ _ _ _ T) as RC. pose proof (widen_rel data x RC LX) as WR.
  destruct (cols_forest M P c (fun k => k) (fun _ => True) longer f f' arg arg' data (widen x data) W (S W) h e e' f1 h1 e1) as (f1' & e1' & H1 & H2 & H3 & H4 & H5 & H6); auto.
  - intros r r' [_ [v ->]] <-. rewrite app_length. cbn. lia.
  - intros la rows seed e0 e0' t tc a a' TR B _.
    assert (AQ : a' = add_column W x a) by (unfold a', add_column, a, widen, arange; cbn [ta_data ta_labels ta_budget ta_dd ta_seed ta_idcs ta_feats option_map]; now rewrite seq_S).
    assert (KF : In k (train_feats a)) by (unfold train_feats, a, arange; cbn [ta_feats]; apply in_seq; lia).
    assert (RW : forall i, In i (train_rows a) -> i < length data) by (intros i Hi; apply (row_in tc a W TR) in Hi; exact Hi).
    assert (AC : all_columns tc) by (eapply forest_all_columns; eauto).
    assert (Z : exists t', built P M tc (add_column W x a) e0' t' /\ col_tree (fun k => k) t t' /\ forall r v, length r = W -> answer (tree_predict tc t' (r ++ [v])) = answer (tree_predict tc t r)).
    { destruct SHADOW as [[BI MO]|(s & d & S0 & EX)].
      - eapply monotone_column with (k := k); eauto. destruct MO as [MO|MO]; [left|right]; intros i j Hi Hj; apply MO; auto.
      - eapply affine_column with (k := k) (s := s) (d := d); eauto. }
    destruct Z as (t' & B' & CT & PR). rewrite AQ. exists t'. split; auto. split; auto. intros r r' [LR [v ->]]. now apply PR.
  - intros ct _ nd j _ _. exact I.
  - exists f1', e1'. split; auto. split; auto. split; auto. split; [|split].
    + intros r v LR. eapply cols_predict; eauto. split; eauto.
    + intros sc f2 G. destruct (cols_oob _ _ _ _ _ _ _ _ _ _ H3 H4 H5 H6 WR G) as (f2' & Q & _). eauto.
    + intros MD arr f2 G. destruct (cols_mdi (fun k => k) (fun _ => True) W (S W)) with (f := f1) (f' := f1') (data := data) (data' := widen x data) (arr := arr) (f2 := f2) as (arr' & f2' & Q & IM); auto.
      * intros ct _ nd j _ _. exact I.
      * intros r I. apply In_nth_error in I. destruct I as [i I]. destruct (Forall2_nth' _ _ _ _ _ WR I) as (r0 & _ & [LR [v ->]]). rewrite app_length. cbn. lia.
      * symmetry. eapply Forall2_len; eauto.
      * exists f2'. rewrite Q. do 2 f_equal. destruct IM as [L1 L2 S1 S2 S3]. apply list_ext. intros j. destruct (lt_eq_lt_dec j W) as [[J| ->]|J].
        -- rewrite nth_error_app1 by lia. apply S1; auto.
        -- rewrite nth_error_app2 by lia. rewrite L1, Nat.sub_diag. cbn. apply S3; [lia|]. intros; lia.
        -- rewrite !(proj2 (nth_error_None _ _)); auto; rewrite ?app_length; cbn; lia.
Qed.
End Wide.

(** ** Fewer columns *)
Section Narrow.
Context (M : math) (P : prng) (c : fcfg) (f f' : forest) (arg arg' : option (list (list Qc)) * option nat) (data : list (list Qc)) (keep : list nat) (W : nat) (h : heap) (e e' : env) (f1 : forest) (h1 : heap) (e1 : env).
Context (T : forest_trainable c f arg h data W) (FC : forest_columns c f) (SC : same_call f f' arg arg' (map (select_row keep) data)) (NQ : e_np e' = e_np e).
Context (SK : StronglySorted lt keep) (NK : keep <> []) (KW : forall k, In k keep -> k < W) (AP : fc_bin c = IDENTITY \/ apart keep data).
Context (FIT : forest_fit M P c f arg h e = Ok (f1, h1, e1)) (UO : forest_uses keep f1).
Definition narrower (r r' : list Qc) : Prop := length r = W /\ r' = select_row keep r.
Lemma narrow_rel d : rectangular W d -> Forall2 narrower d (map (select_row keep) d).
Proof. induction d as [|r d IH]; intros RC; constructor; [split; [apply RC; now left|auto]|apply IH; intros q Q; apply RC; now right]. Qed.
Lemma place_inj k j : In k keep -> In j keep -> place keep k = place keep j -> k = j.
Proof. intros A B E. destruct (place_in _ _ A) as [_ P1]. destruct (place_in _ _ B) as [_ P2]. congruence. Qed.
Lemma place_nth j k : nth_error keep j = Some k -> place keep k = j.
Proof.
  intros E. destruct (place_in keep k (nth_error_In _ _ E)) as [_ P1]. destruct (lt_eq_lt_dec (place keep k) j) as [[Z|Z]|Z]; auto; exfalso; [apply (sorted_nth_lt keep SK _ _ _ _ P1 E) in Z|apply (sorted_nth_lt keep SK _ _ _ _ E P1) in Z]; lia.
Qed.
Lemma narrow_forest : exists f1' e1', forest_fit M P c f' arg' h e' = Ok (f1', h1, e1') /\ e_np e1' = e_np e1 /\ col_forest (place keep) f1 f1' /\
  (forall r, length r = W -> answer (forest_predict c f1' (select_row keep r)) = answer (forest_predict c f1 r)) /\
  (forall sc f2, get_oob_score c f1 h1 None = Ok (sc, f2) -> exists f2', get_oob_score c f1' h1 None = Ok (sc, f2')) /\
  (f_mdg f1 = None -> forall arr f2, calculate_mdi f1 = Ok (arr, f2) -> exists f2', calculate_mdi f1' = Ok (map (fun k => nth k arr (Fin 0%Qc)) keep, f2') /\ forall k, k < W -> ~ In k keep -> nth_error arr k = Some (Fin 0%Qc)).
Proof.
  pose proof (ft_rect _ _ _ _ _ _ T) as RC. pose proof (narrow_rel data RC) as WR.
  assert (GT : good_trees (fun k => In k keep) f1) by (intros [tc t] I nd k; exact (UO tc t I nd k)).
  destruct (cols_forest M P c (place keep) (fun k => In k keep) narrower f f' arg arg' data (map (select_row keep) data) W (length keep) h e e' f1 h1 e1) as (f1' & e1' & H1 & H2 & H3 & H4 & H5 & H6); auto.
  - intros r r' [_ ->] _. apply map_length.
  - intros la rows seed e0 e0' t tc a a' TR B G.
    change a' with (select_columns keep a). destruct (dropped_columns M tc a W keep TR (forest_all_columns c f _ FC) eq_refl SK NK KW) with (P := P) (e := e0) (e' := e0') (t := t) as (t' & B' & CT & PR); auto.
    + destruct AP as [BI|AP2]; [now left|right]. intros i j Hi Hj LN. apply AP2; [exact (row_in tc a W TR i Hi)|exact (row_in tc a W TR j Hj)|congruence].
    + exists t'. split; auto. split; auto. intros r r' [LR ->]. now apply PR.
  - exists f1', e1'. split; auto. split; auto. split; auto. split; [|split].
    + intros r LR. eapply cols_predict; eauto. split; eauto.
    + intros sc f2 G. destruct (cols_oob _ _ _ _ _ _ _ _ _ _ H3 H4 H5 H6 WR G) as (f2' & Q & _). eauto.
    + intros MD arr f2 G. destruct (cols_mdi (place keep) (fun k => In k keep) W (length keep)) with (f := f1) (f' := f1') (data := data) (data' := map (select_row keep) data) (arr := arr) (f2 := f2) as (arr' & f2' & Q & IM); auto.
      * intros k K _. now apply place_in.
      * intros k j K J _ _. now apply place_inj.
      * intros r I. apply in_map_iff in I. destruct I as [r0 [<- _]]. apply map_length.
      * apply map_length.
      * exists f2'. rewrite Q. destruct IM as [L1 L2 S1 S2 S3]. split; auto. do 2 f_equal. apply list_ext. intros j. rewrite nth_error_map. destruct (nth_error keep j) as [k|] eqn:E; cbn [option_map].
        -- rewrite <- (place_nth _ _ E). pose proof (nth_error_In _ _ E) as IK. pose proof (KW k IK) as KK. rewrite S1; auto. apply nth_error_nth'. lia.
        -- apply nth_error_None. apply nth_error_None in E. lia.
Qed.
End Narrow.

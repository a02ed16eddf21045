(** Forests: adding a column that follows another one, and dropping columns no tree uses. *)
From Coq Require Import List Arith Bool ZArith QArith Qcanon Lia Sorted.
From Verif Require Import Base Num Rng Histogram Utils Criteria Solvers Tree Forest Samples Spec SolverSpec TreeSpec InvarSpec ForestSpec FInvarSpec ColSpec FColSpec NumFacts TreeWitness TrustWitness ForestWitness FInvarWitness InvarWitness ColWitness FColWitness FColThms.
Import ListNotations.
Local Open Scope nat_scope.

(** ** C155: one more column *)
Theorem C155_shadow_column : forall M P c f f' arg arg' data x W k h e e' f1 h1 e1,
  forest_trainable c f arg h data W -> forest_columns c f -> same_call f f' arg arg' (widen x data) -> length x = length data -> e_np e' = e_np e -> k < W ->
  fc_bin c = IDENTITY /\ ((forall i j, i < length data -> j < length data -> (cell data i k <= cell data j k)%Qc -> (nth i x 0 <= nth j x 0)%Qc) \/
     (forall i j, i < length data -> j < length data -> (cell data i k <= cell data j k)%Qc -> (nth j x 0 <= nth i x 0)%Qc)) \/
  (exists s d, (0 <= s)%Qc /\ forall i, i < length data -> nth i x 0%Qc = (s * cell data i k + d)%Qc) ->
  forest_fit M P c f arg h e = Ok (f1, h1, e1) ->
  exists f1' e1', forest_fit M P c f' arg' h e' = Ok (f1', h1, e1') /\ e_np e1' = e_np e1 /\ col_forest (fun k => k) f1 f1' /\
    (forall r v, length r = W -> answer (forest_predict c f1' (r ++ [v])) = answer (forest_predict c f1 r)) /\
    (forall sc f2, get_oob_score c f1 h1 None = Ok (sc, f2) -> exists f2', get_oob_score c f1' h1 None = Ok (sc, f2')) /\
    (f_mdg f1 = None -> forall arr f2, calculate_mdi f1 = Ok (arr, f2) -> exists f2', calculate_mdi f1' = Ok (arr ++ [Fin 0%Qc], f2')).
Proof. exact wide_forest. Qed.
Print Assumptions C155_shadow_column.
(** When every node draws the columns it looks at, a second copy of a column can change the
    answers. *)
Theorem C155_subsampled_refuted : exists M P c f f' data x W h e e' f1 h1 e1 f1' h1' e1' r v,
  forest_trainable c f (None, None) h data W /\ forest_fixed_grid c /\ fc_fsub c = FSInt 1 /\ same_call f f' (None, None) (None, None) (widen x data) /\ length x = length data /\ e_np e' = e_np e /\
  (forall i, i < length data -> nth i x 0%Qc = cell data i 1) /\ forest_fit M P c f (None, None) h e = Ok (f1, h1, e1) /\ forest_fit M P c f' (None, None) h e' = Ok (f1', h1', e1') /\
  In r data /\ In (r ++ [v]) (widen x data) /\ answer (forest_predict c f1' (r ++ [v])) <> answer (forest_predict c f1 r).
Proof. exact subsampled. Qed.
Print Assumptions C155_subsampled_refuted.

(** ** C156: only the columns in use *)
Theorem C156_unused_columns : forall M P c f f' arg arg' data keep W h e e' f1 h1 e1,
  forest_trainable c f arg h data W -> forest_columns c f -> same_call f f' arg arg' (map (select_row keep) data) -> e_np e' = e_np e ->
  StronglySorted lt keep -> keep <> [] -> (forall k, In k keep -> k < W) -> fc_bin c = IDENTITY \/ apart keep data ->
  forest_fit M P c f arg h e = Ok (f1, h1, e1) -> forest_uses keep f1 ->
  exists f1' e1', forest_fit M P c f' arg' h e' = Ok (f1', h1, e1') /\ e_np e1' = e_np e1 /\ col_forest (place keep) f1 f1' /\
    (forall r, length r = W -> answer (forest_predict c f1' (select_row keep r)) = answer (forest_predict c f1 r)) /\
    (forall sc f2, get_oob_score c f1 h1 None = Ok (sc, f2) -> exists f2', get_oob_score c f1' h1 None = Ok (sc, f2')) /\
    (f_mdg f1 = None -> forall arr f2, calculate_mdi f1 = Ok (arr, f2) -> exists f2', calculate_mdi f1' = Ok (map (fun k => nth k arr (Fin 0%Qc)) keep, f2') /\
       forall k, k < W -> ~ In k keep -> nth_error arr k = Some (Fin 0%Qc)).
Proof. exact narrow_forest. Qed.
Print Assumptions C156_unused_columns.

(** ** The hypotheses are met: a bootstrapped classifier and a boosted regressor *)
Example C155_ex : forall c Y, c = fc_cl /\ Y = Y6 \/ c = fc_bo /\ Y = T6 -> exists f e f' e' f1 h1 e1 sc f2 arr f3,
  forest_trainable c f (None, None) (heap_of Y) X6 2 /\ forest_columns c f /\ same_call f f' (None, None) (None, None) (widen up X6) /\ length up = length X6 /\ e_np e' = e_np e /\ fc_bin c = IDENTITY /\
  (forall i j, i < length X6 -> j < length X6 -> (cell X6 i 0 <= cell X6 j 0)%Qc -> (nth i up 0 <= nth j up 0)%Qc) /\
  forest_fit M0 P2 c f (None, None) (heap_of Y) e = Ok (f1, h1, e1) /\ length (f_trees f1) = 3 /\ (forall ct, In ct (f_trees f1) -> 1 <= t_splits (snd ct)) /\ f_mdg f1 = None /\ calculate_mdi f1 = Ok (arr, f3) /\
  (c = fc_cl -> get_oob_score c f1 h1 None = Ok (sc, f2)).
Proof.
  intros c Y C.
  assert (K : check (frunX c X6 (heap_of Y)) (fun a => check (frunX c (widen up X6) (heap_of Y)) (fun b =>
     check (calculate_mdi (fst (fst (snd a)))) (fun _ => grown (fst (fst (snd a))) && (length (f_trees (fst (fst (snd a)))) =? 3) && match f_mdg (fst (fst (snd a))) with None => true | _ => false end &&
       (negb (fc_class c) || check (get_oob_score c (fst (fst (snd a))) (snd (fst (snd a))) None) (fun _ => true))))) = true) by (destruct C as [[-> ->]|[-> ->]]; vm_compute; reflexivity).
  take K. take K. take K. destruct x as [[f e0] [[f1 h1] e1]], x0 as [[f' e0'] [[f1' h1'] e1']], x1 as [arr f3]. cbn [fst snd] in *. apply andb_prop in K. destruct K as [K K4]. apply andb_prop in K. destruct K as [K K3]. apply andb_prop in K. destruct K as [K1 K2].
  destruct (frunX_ok _ _ _ _ _ _ _ _ H) as [N1 R1]. destruct (frunX_ok _ _ _ _ _ _ _ _ H0) as [N2 _]. destruct (start_same _ _ _ _ _ _ _ _ _ _ _ _ _ N1 N2) as [SC NQ].
  assert (OO : exists sc f2, c = fc_cl -> get_oob_score c f1 h1 None = Ok (sc, f2)).
  { destruct C as [[-> ->]|[-> ->]]; [cbn [fc_cl fc_class fcfg0 negb orb] in K4|exists NaN, f1; intros Q; discriminate Q]. apply via in K4. destruct K4 as [[sc f2] [K4 _]]. eauto. }
  destruct OO as (sc & f2 & OO). exists f, e0, f', e0', f1, h1, e1, sc, f2, arr, f3. split; [apply (fresh_trainable P2 c false Y f e0); [tauto|exact N1]|]. split.
  { apply plain_columns; [tauto|..]; clear - N1 C; destruct C as [[-> ->]|[-> ->]]; cbn in N1; injection N1 as <- _; reflexivity. }
  split; [exact SC|]. split; [reflexivity|]. split; [exact NQ|]. split; [destruct C as [[-> _]|[-> _]]; reflexivity|]. split.
  { intros i j Hi Hj. apply (leb_on_spec (fun i => cell X6 i 0) (fun i => nth i up 0%Qc) (seq 0 6)); [vm_compute; reflexivity| |]; apply in_seq; cbn in *; lia. }
  split; [exact R1|]. split; [now apply Nat.eqb_eq|]. split; [now apply grown_spec|]. split; [destruct (f_mdg f1); [discriminate|reflexivity]|]. split; [assumption|exact OO].
Qed.
Example C156_ex : forall c Y, c = fc_cl /\ Y = Y6 \/ c = fc_bo /\ Y = T6 -> exists f e f' e' f1 h1 e1,
  forest_trainable c f (None, None) (heap_of Y) X6 2 /\ forest_columns c f /\ same_call f f' (None, None) (None, None) (map (select_row [0]) X6) /\ e_np e' = e_np e /\ StronglySorted lt [0] /\ apart [0] X6 /\
  forest_fit M0 P2 c f (None, None) (heap_of Y) e = Ok (f1, h1, e1) /\ forest_uses [0] f1 /\ length (f_trees f1) = 3 /\ (forall ct, In ct (f_trees f1) -> 1 <= t_splits (snd ct)).
Proof.
  intros c Y C.
  assert (K : check (frunX c X6 (heap_of Y)) (fun a => check (frunX c (map (select_row [0]) X6) (heap_of Y)) (fun b =>
     grown (fst (fst (snd a))) && (length (f_trees (fst (fst (snd a)))) =? 3) && fuses [0] (fst (fst (snd a))))) = true) by (destruct C as [[-> ->]|[-> ->]]; vm_compute; reflexivity).
  take K. take K. destruct x as [[f e0] [[f1 h1] e1]], x0 as [[f' e0'] [[f1' h1'] e1']]. cbn [fst snd] in *. apply andb_prop in K. destruct K as [K K3]. apply andb_prop in K. destruct K as [K1 K2].
  destruct (frunX_ok _ _ _ _ _ _ _ _ H) as [N1 R1]. destruct (frunX_ok _ _ _ _ _ _ _ _ H0) as [N2 _]. destruct (start_same _ _ _ _ _ _ _ _ _ _ _ _ _ N1 N2) as [SC NQ].
  exists f, e0, f', e0', f1, h1, e1. split; [apply (fresh_trainable P2 c false Y f e0); [tauto|exact N1]|]. split.
  { apply plain_columns; [tauto|..]; clear - N1 C; destruct C as [[-> ->]|[-> ->]]; cbn in N1; injection N1 as <- _; reflexivity. }
  split; [exact SC|]. split; [exact NQ|]. split; [repeat constructor|]. split.
  { intros i j Hi Hj NE. exists 0. split; [now left|]. cbn in Hi, Hj. do 6 (destruct i as [|i]; [do 6 (destruct j as [|j]; [try (exfalso; lia); intros Z; apply (f_equal this) in Z; vm_compute in Z; discriminate Z|]); exfalso; lia|]). exfalso; lia. }
  split; [exact R1|]. split; [now apply fuses_spec|]. split; [now apply Nat.eqb_eq|now apply grown_spec].
Qed.

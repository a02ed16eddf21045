(** Runs behind the examples and refutation of PropsBatch.v. *)
From Coq Require Import List Arith Bool ZArith QArith Qcanon Lia.
From Verif Require Import Base Num Rng Histogram Utils Criteria Solvers Tree Forest Spec SolverSpec TreeSpec TrainSpec ForestSpec BanditSpec BatchSpec Samples NumFacts ListFacts TreeTotal TreeMore TreeWitness InvarWitness ForestWitness TrainWitness BudgetWitness BanditWitness.
Import ListNotations.
Local Open Scope nat_scope.

(** Twenty rows, one class up to 7 and the other from 8: the third of the six thresholds, 7.6,
    separates them. *)
Definition two_args : targs := grow_args (line 20) (map (fun k => if k <? 8 then z 0 else z 1) (seq 0 20)).
Lemma two_trainable cl sv d b : trainable (band_cfg cl sv d b) two_args 1.
Proof.
  apply band_trainable; try reflexivity; try (cbn; lia); [apply line_rect|]. intros _ y I. apply in_map_iff in I. destruct I as (k & <- & _). destruct (k <? 8); auto.
Qed.
(** The first batch of five rows of this generator: 7, 1, 5, 3, 0. *)
Definition alone (t : tree) : bool :=
  match t_nodes t with [nd] => (match nd_idcs nd with [0;1;2;3;4;5;6;7;8;9;10;11;12;13;14;15;16;17;18;19] => true | _ => false end) && (nd_depth nd =? 0) && (t_splits t =? 0) | _ => false end.
Lemma two_alone : check (run_with P0 M0 (band_cfg true MAB 2 5) two_args env0) alone = true.
Proof. vm_compute. reflexivity. Qed.
Lemma two_thresholds : thresholds (band_cfg true MAB 2 5) two_args (seq 0 20) 0 (map (fun b => z 0 + (z 19 - z 0) * (rat b / rat (6 - 1)))%Qc (seq 0 6)).
Proof.
  exists (z 0), (z 19). split.
  - cbn [tc_minmax band_cfg range_of]. split; split.
    + left. reflexivity.
    + intros x I. vm_compute in I. repeat (destruct I as [<-|I]; [discriminate|]). destruct I.
    + do 19 right. left. reflexivity.
    + intros x I. vm_compute in I. repeat (destruct I as [<-|I]; [discriminate|]). destruct I.
  - right. split; [discriminate|reflexivity].
Qed.
Lemma two_split i : In i (seq 0 20) -> nth i (ta_labels two_args) 0%Qc = z 0 <-> (cell (ta_data two_args) i 0 <= z 0 + (z 19 - z 0) * (rat 2 / rat (6 - 1)))%Qc.
Proof.
  intros I. apply in_seq in I. destruct I as [_ I]. cbn in I. do 20 (destruct i as [|i]; [split; intros H; first [discriminate | reflexivity | exfalso; vm_compute in H; first [discriminate H | now apply H]]|]). lia.
Qed.
Lemma separable_missed : exists P M c a e t W, trainable c a W /\ built P M c a e t /\ tc_solver c = MAB /\ tc_class c = true /\ tc_bin c = LINEAR /\ 1 <= tc_batch c /\ bins_ok c /\ ranges_cover c a /\
  ta_budget a = None /\ tc_max_leaves c = None /\ tc_min_imp c = 0%Qc /\ may_split c a t 0 /\ t_splits t = 0 /\
  exists s E v y, In s (train_feats a) /\ thresholds c a (node_rows t 0) s E /\ In v E /\ forall i, In i (node_rows t 0) -> nth i (ta_labels a) 0%Qc = y <-> (cell (ta_data a) i s <= v)%Qc.
Proof.
  exists P0, M0, (band_cfg true MAB 2 5), two_args, env0.
  pose proof two_alone as K. apply via in K. destruct K as [t [E K]]. exists t, 1.
  unfold alone in K. destruct (t_nodes t) as [|nd [|]] eqn:N; try discriminate K. apply andb_prop in K. destruct K as [K SP]. apply andb_prop in K. destruct K as [K DP]. apply Nat.eqb_eq in SP, DP.
  assert (RW : nd_idcs nd = seq 0 20).
  { revert K. generalize (nd_idcs nd). clear. intros l K.
    repeat match type of K with (match ?x with _ => _ end) = true => destruct x; try discriminate K end. reflexivity. }
  assert (RT : node_rows t 0 = seq 0 20) by (unfold node_rows; rewrite N; exact RW).
  split; [apply two_trainable|]. split; [now apply run_built|]. do 3 (split; [reflexivity|]). split; [cbn; lia|]. split; [right; cbn; lia|]. split; [exact Logic.I|]. do 3 (split; [reflexivity|]).
  split.
  { exists nd. rewrite RT. split; [unfold node_at; now rewrite N|]. split; [cbn; rewrite DP; reflexivity|]. split; [cbn; lia|].
    exists (z 0), (z 1). split; [left; reflexivity|]. split; [do 8 right; left; reflexivity|discriminate]. }
  split; [exact SP|]. exists 0. eexists. exists (z 0 + (z 19 - z 0) * (rat 2 / rat (6 - 1)))%Qc, (z 0). rewrite RT.
  split; [left; reflexivity|]. split; [exact two_thresholds|]. split; [do 2 right; left; reflexivity|]. exact two_split.
Qed.

(** A batch of five of twenty rows at the root, and what it records. *)
Definition five : list nat := [7; 3; 1; 12; 4].
Definition root_from (c : tcfg) (a : targs) (J : list nat) (t : tree) : bool :=
  match nth_error (t_nodes t) 0 with
  | Some nd => match nd_left nd, nd_sf nd, nd_sv nd, nd_red nd with
               | Some _, Some s, Some v, Some (Fin r) => qeq r (split_change M0 c a J s v) && negb (qeq r (split_change M0 c a (nd_idcs nd) s v)) &&
                   (bins_at c (nd_idcs nd) * length (filter (scanned c a (nd_idcs nd)) (nd_feats nd)) =? 6)
               | _, _, _, _ => false
               end
  | None => false
  end.
Lemma five_batch : batch_of 5 false (seq 0 20) five.
Proof.
  exists five. split; [reflexivity|]. split; [intros p I; cbn in I; repeat (destruct I as [<-|I]; [cbn; lia|]); destruct I|].
  split; [intros _; unfold five; repeat constructor; cbn; lia|]. split; [cbn; lia|reflexivity].
Qed.

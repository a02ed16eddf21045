(** Runs behind PropsOrder.v. *)
From Coq Require Import List Arith Bool ZArith QArith Qcanon Lia Permutation Sorted.
From Verif Require Import Base Num Rng Histogram Utils Criteria Solvers Tree Samples Spec SolverSpec TreeSpec ColSpec GrowSpec OrderSpec NumFacts ListFacts TreeWitness TrustWitness InvarWitness ForestWitness TrainWitness OrderThms.
Import ListNotations.
Local Open Scope nat_scope.

(** The shape of a fitted tree, computed. *)
Fixpoint shape_of (t : tree) (fuel id : nat) : option shape :=
  match fuel, nth_error (t_nodes t) id with
  | S k, Some nd =>
      match nd_left nd, nd_right nd with
      | None, None => Some (Leaf (nd_idcs nd))
      | Some l, Some r => match nd_sf nd, nd_sv nd, shape_of t k l, shape_of t k r with
                          | Some s, Some v, Some sl, Some sr => Some (Fork (nd_idcs nd) s v sl sr)
                          | _, _, _, _ => None
                          end
      | _, _ => None
      end
  | _, _ => None
  end.
Lemma shape_of_ok t fuel : forall id sh, shape_of t fuel id = Some sh -> has_shape t id sh.
Proof.
  induction fuel as [|k IH]; intros id sh H; [discriminate|]. cbn [shape_of] in H. destruct (nth_error (t_nodes t) id) as [nd|] eqn:A; [|discriminate].
  destruct (nd_left nd) as [l|] eqn:EL, (nd_right nd) as [r|] eqn:ER; try discriminate.
  - destruct (nd_sf nd) as [s|] eqn:ES; [|discriminate]. destruct (nd_sv nd) as [v|] eqn:EV; [|discriminate]. destruct (shape_of t k l) as [sl|] eqn:Sl; [|discriminate]. destruct (shape_of t k r) as [sr|] eqn:Sr; [|discriminate]. injection H as <-. eapply hs_fork; eauto.
  - injection H as <-. now constructor.
Qed.
(** Ties, computed for thresholds at all values. *)
Definition tied_to (M : math) (c : tcfg) (a : targs) (I : list nat) (s : nat) (v : Qc) (s' : nat) : bool :=
  existsb (fun i => qeq (split_change M c a I s' (cell (ta_data a) i s')) (split_change M c a I s v)) I.
Fixpoint untied_b (M : math) (c : tcfg) (a : targs) (cols : list nat) (sh : shape) : bool :=
  match sh with
  | Leaf _ => true
  | Fork rows s v l r => forallb (fun s' => (s' =? s) || negb (tied_to M c a rows s v s')) cols && untied_b M c a cols l && untied_b M c a cols r
  end.
Lemma tied_sound M c a cols I s v s' : tc_bin c = IDENTITY -> ties_with M c a cols I s v s' -> In s' cols /\ s' <> s /\ tied_to M c a I s v s' = true.
Proof.
  intros B (H1 & H2 & E & v' & T & IV & Q). split; auto. split; auto. unfold thresholds in T. rewrite B in T. destruct T as [_ T]. apply T in IV. unfold feature_values in IV. rewrite map_map in IV. apply in_map_iff in IV. destruct IV as [i [<- Hi]].
  apply existsb_exists. exists i. split; auto. apply qeq_spec. exact Q.
Qed.
Lemma untied_sound M c a cols sh : tc_bin c = IDENTITY -> untied_b M c a cols sh = true -> untied M c a cols sh.
Proof.
  intros B. induction sh as [I|I s v l IHl r IHr]; cbn [untied_b]; intros H; constructor; apply andb_prop in H; destruct H as [H H3]; apply andb_prop in H; destruct H as [H1 H2]; auto.
  intros s' T. destruct (tied_sound M c a cols I s v s' B T) as (J1 & J2 & J3). rewrite forallb_forall in H1. specialize (H1 s' J1). apply orb_prop in H1. destruct H1 as [H1|H1]; [apply Nat.eqb_eq in H1; congruence|]. rewrite J3 in H1. discriminate.
Qed.

(** Three columns, three splits, no ties; two more orders of the columns. *)
Definition X8 : list (list Qc) := [[z 0; z 3; z 1]; [z 1; z 0; z 2]; [z 2; z 1; z 4]; [z 3; z 2; z 3]; [z 4; z 1; z 3]; [z 5; z 3; z 4]; [z 6; z 6; z 2]; [z 7; z 4; z 5]].
Definition T8 : list Qc := [z 0; z 2; z 1; z 0; z 6; z 9; z 20; z 10].
Definition eight : targs := grow_args X8 T8.
Lemma eight_trainable : trainable (grow_cfg false 3) eight 3.
Proof.
  apply grow_trainable; try reflexivity; cbn; try lia. intros r H. cbn in H. repeat (destruct H as [<-|H]; [reflexivity|]). destruct H.
Qed.
Lemma eight_exhaustive : exhaustive (grow_cfg false 3) eight.
Proof. repeat split; try reflexivity. right. reflexivity. Qed.
Lemma eight_sel keep : NoDup keep -> keep <> [] -> (forall k, In k keep -> k < 3) -> trainable (grow_cfg false 3) (select_columns keep eight) (length keep).
Proof. intros. apply (ord_trainable _ _ 3); auto; try reflexivity. apply eight_trainable. Qed.
Lemma eight_run : exists t sh, built P0 M0 (grow_cfg false 3) eight env0 t /\ has_shape t 0 sh /\ untied M0 (grow_cfg false 3) eight (seq 0 3) sh /\ columns_of sh = [0; 0; 1] /\ length (leaf_sets sh) = 4.
Proof.
  assert (K : check (run_with P0 M0 (grow_cfg false 3) eight env0) (fun t => match shape_of t 9 0 with
    | Some sh => untied_b M0 (grow_cfg false 3) eight (seq 0 3) sh && (length (leaf_sets sh) =? 4) && if list_eq_dec Nat.eq_dec (columns_of sh) [0; 0; 1] then true else false
    | None => false end) = true) by (vm_compute; reflexivity).
  apply check_run in K. destruct K as [t [R K]]. destruct (shape_of t 9 0) as [sh|] eqn:S; [|discriminate]. apply andb_prop in K. destruct K as [K K3]. apply andb_prop in K. destruct K as [K1 K2].
  exists t, sh. split; [now apply run_built|]. split; [eapply shape_of_ok; eauto|]. split; [now apply untied_sound|]. split; [|now apply Nat.eqb_eq].
  destruct (list_eq_dec Nat.eq_dec (columns_of sh) [0; 0; 1]); [assumption|discriminate].
Qed.
Lemma eight_perm keep : Permutation keep (seq 0 3) -> exists t', built P1 M0 (grow_cfg false 3) (select_columns keep eight) env0 t'.
Proof.
  intros PM. eapply exact_identity_fits; [|reflexivity|reflexivity]. apply eight_sel.
  - eapply Permutation_NoDup; [apply Permutation_sym, PM|apply seq_NoDup].
  - intros ->. apply Permutation_nil in PM. discriminate.
  - intros k H. apply (Permutation_in _ PM) in H. apply in_seq in H. lia.
Qed.

(** Two columns that are equally good: the first one is used, whichever it is. *)
Definition Xtie : list (list Qc) := [[z 0; z 0]; [z 0; z 1]; [z 1; z 0]; [z 1; z 1]].
Definition Ttie : list Qc := [z 0; z 1; z 1; z 2].
Definition tie : targs := grow_args Xtie Ttie.
Lemma tie_trainable : trainable (grow_cfg false 2) tie 2.
Proof.
  apply grow_trainable; try reflexivity; cbn; try lia. intros r H. cbn in H. repeat (destruct H as [<-|H]; [reflexivity|]). destruct H.
Qed.
Lemma tie_exhaustive : exhaustive (grow_cfg false 2) tie.
Proof. repeat split; try reflexivity. right. reflexivity. Qed.
Definition says (c : tcfg) (x : list Qc) (v : Qc) (t : tree) : bool := match answer (tree_predict c t x) with Ok (PReg w) => qeq w v | _ => false end.
Lemma ties_matter : exists P M c a W keep e t t' x, exhaustive c a /\ tc_minmax c = None /\ trainable c a W /\ train_feats a = seq 0 W /\ Permutation keep (seq 0 W) /\
  built P M c a e t /\ built P M c (select_columns keep a) e t' /\ In x (ta_data a) /\ answer (tree_predict c t' (select_row keep x)) <> answer (tree_predict c t x).
Proof.
  assert (K1 : check (run_with P0 M0 (grow_cfg false 2) tie env0) (fun t => negb (says (grow_cfg false 2) [z 0; z 1] (frac 3 2) t)) = true) by (vm_compute; reflexivity).
  assert (K2 : check (run_with P0 M0 (grow_cfg false 2) (select_columns [1; 0] tie) env0) (says (grow_cfg false 2) (select_row [1; 0] [z 0; z 1]) (frac 3 2)) = true) by (vm_compute; reflexivity).
  apply check_run in K1. destruct K1 as [t [H1 Q1]]. apply check_run in K2. destruct K2 as [t' [H2 Q2]].
  exists P0, M0, (grow_cfg false 2), tie, 2, [1; 0], env0, t, t', [z 0; z 1]. split; [apply tie_exhaustive|]. split; [reflexivity|]. split; [apply tie_trainable|]. split; [reflexivity|].
  split; [apply perm_swap|]. split; [now apply run_built|]. split; [now apply run_built|]. split; [cbn; auto|]. intros E. apply negb_true_iff in Q1. unfold says in Q1, Q2. rewrite E in Q2. rewrite Q1 in Q2. discriminate.
Qed.

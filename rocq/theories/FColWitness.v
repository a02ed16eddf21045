(** Runs behind PropsFCol.v. *)
From Coq Require Import List Arith Bool ZArith QArith Qcanon Lia Sorted.
From Verif Require Import Base Num Rng Histogram Utils Criteria Solvers Tree Forest Samples Spec SolverSpec TreeSpec InvarSpec ForestSpec FInvarSpec ColSpec FColSpec NumFacts ListFacts TreeWitness TrustWitness ForestWitness FInvarWitness InvarWitness ColWitness.
Import ListNotations.
Local Open Scope nat_scope.

(** Construct on the table and fit. *)
Definition frunX (c : fcfg) (X : list (list Qc)) (h : heap) : res (forest * env * (forest * heap * env)) :=
  do fe <- forest_new P2 c (Some X) (Some 0) None None h env0; do r <- forest_fit M0 P2 c (fst fe) (None, None) h (snd fe); Ok (fe, r).
Lemma frunX_ok c X h f e0 f1 h1 e1 : frunX c X h = Ok (f, e0, (f1, h1, e1)) -> forest_new P2 c (Some X) (Some 0) None None h env0 = Ok (f, e0) /\ forest_fit M0 P2 c f (None, None) h e0 = Ok (f1, h1, e1).
Proof.
  unfold frunX. intros H. apply rbind_ok in H. destruct H as [[f' e'] [E1 H]]. apply rbind_ok in H. destruct H as [r [E2 H]]. cbn [fst snd] in *. injection H as -> -> ->. auto.
Qed.
(** The table only matters to the constructor as something to store. *)
Lemma start_same P c X X' o cls b h e f e0 f' e0' : forest_new P c (Some X) (Some o) cls b h e = Ok (f, e0) -> forest_new P c (Some X') (Some o) cls b h e = Ok (f', e0') ->
  same_call f f' (None, None) (None, None) X' /\ e_np e0' = e_np e0.
Proof.
  unfold forest_new. intros H H'. repeat match goal with
    | H : rbind _ _ = Ok _ |- _ => apply rbind_ok in H; destruct H as [? [? H]]
    end.
  repeat match goal with A : ?r = Ok ?x, B : ?r = Ok ?y |- _ => assert (x = y) by congruence; subst y; clear B end.
  repeat match goal with x : prod _ _ |- _ => destruct x end. cbv beta iota zeta in *.
  apply ok_pair_inv in H, H'. destruct H as [<- <-], H' as [<- <-]. split; [|reflexivity]. split; [|left; cbn; auto]. constructor; reflexivity.
Qed.
Lemma plain_columns c f : c = fc_cl \/ c = fc_re \/ c = fc_bo -> f_minmax f = None -> f_dd f = None -> f_budget f = None -> forest_columns c f.
Proof.
  intros C A B D. split; [split; [destruct C as [->|[->| ->]]; reflexivity|left; destruct C as [->|[->| ->]]; reflexivity]|].
  assert (Q : fc_fsub c = FSNone /\ fc_precomp_minmax c = false /\ fc_alpha_N c = 1%Qc /\ fc_alpha_F c = 1%Qc) by (destruct C as [->|[->| ->]]; repeat split; reflexivity).
  destruct Q as (-> & -> & -> & ->). repeat split; auto; apply Qcle_refl.
Qed.
Definition fuses (keep : list nat) (f : forest) : bool := forallb (fun ct : tcfg * tree => uses_onlyb keep (snd ct)) (f_trees f).
Lemma fuses_spec keep f : fuses keep f = true -> forest_uses keep f.
Proof. intros H tc t I. unfold fuses in H. rewrite forallb_forall in H. apply uses_onlyb_spec. exact (H (tc, t) I). Qed.
Definition grown (f : forest) : bool := forallb (fun ct : tcfg * tree => 1 <=? t_splits (snd ct)) (f_trees f).
Lemma grown_spec f : grown f = true -> forall ct, In ct (f_trees f) -> 1 <= t_splits (snd ct).
Proof. intros H ct I. unfold grown in H. rewrite forallb_forall in H. apply Nat.leb_le. now apply H. Qed.

(** ** A column drawn at every node *)
Definition fc_sub := fcfg0 false 3 false (FSInt 1) 0%Qc false None.
Definition twice_col : list Qc := map (fun r => nth 1 r 0%Qc) X6.
Lemma subsampled : exists M P c f f' data x W h e e' f1 h1 e1 f1' h1' e1' r v,
  forest_trainable c f (None, None) h data W /\ forest_fixed_grid c /\ fc_fsub c = FSInt 1 /\ same_call f f' (None, None) (None, None) (widen x data) /\ length x = length data /\ e_np e' = e_np e /\
  (forall i, i < length data -> nth i x 0%Qc = cell data i 1) /\ forest_fit M P c f (None, None) h e = Ok (f1, h1, e1) /\ forest_fit M P c f' (None, None) h e' = Ok (f1', h1', e1') /\
  In r data /\ In (r ++ [v]) (widen x data) /\ answer (forest_predict c f1' (r ++ [v])) <> answer (forest_predict c f1 r).
Proof.
  assert (K : check (frunX fc_sub X6 (heap_of T6)) (fun a => check (frunX fc_sub (widen twice_col X6) (heap_of T6)) (fun b =>
     check (forest_predict fc_sub (fst (fst (snd a))) [z 4; z 20]) (fun p => check (forest_predict fc_sub (fst (fst (snd b))) ([z 4; z 20] ++ [z 20])) (fun q =>
       match fst p, fst q with FReg u, FReg v => negb (qeq u v) | _, _ => false end)))) = true) by (vm_compute; reflexivity).
  take K. take K. take K. take K. destruct x as [[f e0] [[f1 h1] e1]], x0 as [[f' e0'] [[f1' h1'] e1']], x1 as [p f2], x2 as [q f2']. cbn [fst snd] in *.
  destruct (frunX_ok _ _ _ _ _ _ _ _ H) as [N1 R1]. destruct (frunX_ok _ _ _ _ _ _ _ _ H0) as [N2 R2]. destruct (start_same _ _ _ _ _ _ _ _ _ _ _ _ _ N1 N2) as [SC NQ].
  exists M0, P2, fc_sub, f, f', X6, twice_col, 2, (heap_of T6), e0, e0', f1, h1, e1, f1', h1', e1', [z 4; z 20], (z 20). split.
  { clear - N1. cbn in N1. injection N1 as <- _. eapply tidy_trainable; [reflexivity|reflexivity|cbn; auto|discriminate|reflexivity|cbn; intros Q; discriminate Q|reflexivity|reflexivity|reflexivity|reflexivity|reflexivity|reflexivity|reflexivity|cbn; lia|lia|apply X6_rect|intros Q; discriminate Q]. }
  split; [split; [reflexivity|now left]|]. split; [reflexivity|]. split; [exact SC|]. split; [reflexivity|]. split; [exact NQ|]. split.
  { intros i L. do 6 (destruct i as [|i]; [reflexivity|]). cbn in L. lia. }
  split; [exact R1|]. split; [exact R2|]. split; [cbn; tauto|]. split; [cbn; tauto|]. rewrite H1, H2. cbn [answer]. intros E. assert (q = p) by congruence. subst q. destruct p; try discriminate K. rewrite (proj2 (qeq_spec v v) eq_refl) in K. discriminate K.
Qed.

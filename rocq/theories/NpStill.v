(** Growing a tree with the exhaustive search over LINEAR or IDENTITY bins leaves numpy's global
    generator as the constructor seeded it. *)
From Coq Require Import List Arith Bool ZArith QArith Qcanon Lia.
From Verif Require Import Base Num Rng Histogram Utils Criteria Solvers Tree Spec SolverSpec TreeSpec NumFacts ListFacts.
Import ListNotations.
Local Open Scope nat_scope.

Section Still.
Context (M : math) (c : tcfg) (EX : tc_solver c = EXACT) (BT : tc_bin c = LINEAR \/ tc_bin c = IDENTITY).

Lemma new_hist_np ic f uf fd cl nb mn mx ty np h np' : ty = LINEAR \/ ty = IDENTITY -> new_hist ic f uf fd cl nb mn mx ty np = Ok (h, np') -> np' = np.
Proof.
  intros T H. unfold new_hist in H. destruct T as [-> | ->]; cbn in H; repeat (apply rbind_ok in H; let x := fresh "x" in let E := fresh "E" in destruct H as [x [E H]]; repeat match goal with p : (_ * _)%type |- _ => destruct p end);
  repeat match goal with E : (if ?b then _ else _) = Ok _ |- _ => destruct b; try discriminate E end; repeat match goal with E : Ok (_, _) = Ok (_, _) |- _ => apply ok_pair_inv in E; destruct E as [? ?] end; subst; auto.
Qed.
Lemma make_np ic data labels mm dd bt B np mh : bt = LINEAR \/ bt = IDENTITY -> make_histograms ic data labels mm dd bt B np = Ok mh -> mh_np mh = np.
Proof.
  intros T H. unfold make_histograms in H. apply rbind_ok in H. destruct H as [r0 [_ H]].
  revert H. apply (foldM_inv _ (fun st => mh_np st = np)); [reflexivity|]. intros f st st' _ I H. unfold mh_step in H.
  apply rbind_ok in H. destruct H as [fd [_ H]]. apply rbind_ok in H. destruct H as [[D uf] [_ H]]. apply rbind_ok in H. destruct H as [[[nb mn] mx] [_ H]]. apply rbind_ok in H. destruct H as [[hh np'] [E H]].
  injection H as <-. cbn [mh_np]. rewrite <- I. destruct T as [-> | ->]; (eapply new_hist_np; [|exact E]; auto).
Qed.
Lemma exact_np sc data labels mir e out e1 : s_bin sc = LINEAR \/ s_bin sc = IDENTITY -> solve_exactly M sc data labels mir e = Ok (out, e1) -> e_np e1 = e_np e.
Proof.
  intros T H. unfold solve_exactly in H. destruct (alloc e) as [j e0] eqn:EA. assert (E0 : e_np e0 = e_np e) by (unfold alloc in EA; injection EA as _ <-; reflexivity).
  apply rbind_ok in H. destruct H as [r0 [_ H]]. apply rbind_ok in H. destruct H as [mh [EM H]]. apply make_np in EM; auto. cbv zeta in H.
  apply rbind_ok in H. destruct H as [[] [_ H]]. apply rbind_ok in H. destruct H as [acc [_ H]]. apply rbind_ok in H. destruct H as [sm [_ H]]. apply rbind_ok in H. destruct H as [est [_ H]]. apply rbind_ok in H. destruct H as [best [_ H]].
  destruct best as [|b l]; [discriminate|]. apply rbind_ok in H. destruct H as [r [_ H]]. apply ok_pair_inv in H. destruct H as [_ <-]. cbn. congruence.
Qed.
Lemma best_np nd b e x o e1 : calculate_best_split M c nd b e = Ok (x, o, e1) -> e_np e1 = e_np e.
Proof.
  intros H. unfold calculate_best_split in H. destruct (nd_computed nd). { apply ok_pair_inv in H. now destruct H as [_ <-]. }
  apply rbind_ok in H. destruct H as [[[r bins] e2] [E H]]. assert (Q : e_np e2 = e_np e).
  { unfold node_solve in E. cbv zeta in E. apply rbind_ok in E. destruct E as [d [_ E]]. apply rbind_ok in E. destruct E as [l [_ E]]. rewrite EX in E. apply rbind_ok in E. destruct E as [[o1 e3] [E1 E]]. apply ok_pair_inv in E. destruct E as [_ <-].
    apply exact_np in E1; auto. }
  destruct r.
  - apply rbind_ok in H. destruct H as [sf [_ H]]. apply ok_pair_inv in H. destruct H as [_ <-]. auto.
  - apply ok_pair_inv in H. destruct H as [_ <-]. auto.
Qed.
Lemma splittable_np t nd e b x e1 : check_splittable M c t nd e = Ok (b, x, e1) -> e_np e1 = e_np e.
Proof.
  intros H. unfold check_splittable in H. apply rbind_ok in H. destruct H as [ok [_ H]]. destruct (negb ok). { apply ok_pair_inv in H. now destruct H as [_ <-]. }
  apply rbind_ok in H. destruct H as [[[n1 o1] e2] [E1 H]]. apply best_np in E1. destruct o1. 2:{ apply ok_pair_inv in H. now destruct H as [_ <-]. }
  apply rbind_ok in H. destruct H as [[[n2 o2] e3] [E2 H]]. apply best_np in E2. apply rbind_ok in H. destruct H as [red [_ H]]. apply ok_pair_inv in H. destruct H as [_ <-]. congruence.
Qed.
Lemma new_np_still t p I d pr b e nd e1 : node_new c t p I d pr b e = Ok (nd, e1) -> e_np e1 = e_np e.
Proof.
  intros H. unfold node_new in H. apply rbind_ok in H. destruct H as [[fs g1] [_ H]]. cbv zeta in H. do 5 (apply rbind_ok in H; destruct H as [? [_ H]]). apply ok_pair_inv in H. now destruct H as [_ <-].
Qed.
Lemma split_np t id e t1 e1 : node_split M c t id e = Ok (t1, e1) -> e_np e1 = e_np e.
Proof.
  intros H. unfold node_split in H. apply rbind_ok in H. destruct H as [nd0 [_ H]]. apply rbind_ok in H. destruct H as [[] [_ H]]. apply rbind_ok in H. destruct H as [[nd e0] [E H]].
  assert (Q : e_np e0 = e_np e). { destruct (nd_sf nd0); [apply ok_pair_inv in E; now destruct E as [_ <-]|]. apply rbind_ok in E. destruct E as [[[x o] e2] [E1 E]]. apply best_np in E1. cbn [fst snd] in E. apply ok_pair_inv in E. now destruct E as [_ <-]. }
  destruct (nd_red nd). 2:{ apply ok_pair_inv in H. now destruct H as [_ <-]. }
  do 6 (apply rbind_ok in H; destruct H as [? [_ H]]). cbv zeta in H. match type of H with (if ?b then _ else _) = _ => destruct b; [discriminate|] end.
  apply rbind_ok in H. destruct H as [[nl e2] [E2 H]]. apply rbind_ok in H. destruct H as [[nr e3] [E3 H]]. unfold create_child in *. apply new_np_still in E2, E3. cbn [fst snd] in *. apply ok_pair_inv in H. destruct H as [_ <-]. congruence.
Qed.
Lemma scan_np z pl z1 : scan_leaf M c z pl = Ok z1 -> e_np (sc_env z1) = e_np (sc_env z).
Proof.
  intros H. unfold scan_leaf in H. destruct (sc_stop z); [now injection H as <-|]. destruct pl as [pos id]. apply rbind_ok in H. destruct H as [nd [_ H]]. apply rbind_ok in H. destruct H as [ok [_ H]].
  destruct (negb ok); [now injection H as <-|]. match type of H with (if ?b then _ else _) = _ => destruct b; [now injection H as <-|] end.
  apply rbind_ok in H. destruct H as [[[nd1 red] e1] [E1 H]]. apply best_np in E1. cbv zeta in H. apply rbind_ok in H. destruct H as [[[b nd2] e2] [E2 H]].
  assert (Q : e_np e2 = e_np e1). { destruct (nd_splittable nd1); [apply ok_pair_inv in E2; now destruct E2 as [_ <-]|]. apply rbind_ok in E2. destruct E2 as [[[b1 nd3] e3] [E3 E2]]. apply splittable_np in E3. apply ok_pair_inv in E2. now destruct E2 as [_ <-]. }
  match type of H with Ok ?z0 = _ => assert (X : z0 = z1) by congruence end. rewrite <- X. cbn [sc_env]. congruence.
Qed.
Lemma step_np t e t1 e1 b : fit_step M c t e = Ok (t1, e1, b) -> e_np e1 = e_np e.
Proof.
  intros H. unfold fit_step in H. apply rbind_ok in H. destruct H as [z [EZ H]]. cbv zeta in H. apply rbind_ok in H. destruct H as [[[t3 e3] cont] [EC H]].
  assert (Z : e_np (sc_env z) = e_np e). { revert EZ. apply (foldM_inv _ (fun z => e_np (sc_env z) = e_np e)); [reflexivity|]. intros p z0 z1 _ I S. apply scan_np in S. congruence. }
  apply rbind_ok in H. destruct H as [d [_ H]]. apply ok_pair_inv in H. destruct H as [H _]. apply pair_equal_spec in H. destruct H as [_ <-].
  destruct (sc_best z) as [[[pos id] x]|]. 2:{ assert (sc_env z = e3) by congruence. congruence. }
  destruct (xlt x _). 2:{ assert (sc_env z = e3) by congruence. congruence. }
  apply rbind_ok in EC. destruct EC as [[t2 e2] [E2 EC]]. apply split_np in E2. cbn [fst snd] in EC. apply rbind_ok in EC. destruct EC as [nd [_ EC]]. assert (e2 = e3) by congruence. congruence.
Qed.
Lemma loop_np fuel : forall t e t1 e1, fit_loop M c fuel t e = Ok (t1, e1) -> e_np e1 = e_np e.
Proof.
  induction fuel as [|fuel IH]; intros t e t1 e1 H; cbn [fit_loop] in H; apply rbind_ok in H; destruct H as [stop [_ H]]; destruct stop; try discriminate H.
  - apply ok_pair_inv in H. now destruct H as [_ <-].
  - apply ok_pair_inv in H. now destruct H as [_ <-].
  - apply rbind_ok in H. destruct H as [[[t2 e2] b] [E2 H]]. apply step_np in E2. destruct b; [apply IH in H; congruence|]. apply ok_pair_inv in H. now destruct H as [_ <-].
Qed.
Lemma tree_np P a e t0 e0 t e1 : tree_new P c a e = Ok (t0, e0) -> tree_fit M c t0 (None, None) e0 = Ok (t, e1) -> e_np e1 = seed_np P (ta_seed a).
Proof.
  intros H1 H2. assert (Q : e_np e0 = seed_np P (ta_seed a)).
  { unfold tree_new in H1. apply rbind_ok in H1. destruct H1 as [[] [_ H1]]. cbv zeta in H1. apply rbind_ok in H1. destruct H1 as [fs [_ H1]]. apply rbind_ok in H1. destruct H1 as [[nd e2] [E H1]]. apply new_np_still in E. cbn [fst snd] in H1. apply ok_pair_inv in H1. destruct H1 as [_ <-]. exact E. }
  unfold tree_fit in H2. cbn [rbind] in H2. cbv zeta in H2. apply rbind_ok in H2. destruct H2 as [t2 [_ H2]]. destruct (tc_splitter c); try discriminate H2. apply loop_np in H2. congruence.
Qed.
End Still.

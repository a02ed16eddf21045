(** Runs behind the examples of PropsReset.v. *)
From Coq Require Import List Arith Bool ZArith QArith Qcanon Lia.
From Verif Require Import Base Num Rng Histogram Utils Criteria Solvers Tree Forest Samples Spec SolverSpec TreeSpec ForestSpec NumFacts ListFacts TreeWitness ForestWitness ForestReset.
Import ListNotations.
Local Open Scope nat_scope.

Definition reg_at (c : fcfg) (f : forest) (x : list Qc) : option Qc := match forest_predict c f x with Ok (FReg v, _) => Some v | _ => None end.
Lemma same_vals_eq l : forall m, same_vals l m = true -> l = m.
Proof.
  unfold same_vals. induction l as [|a l IH]; intros [|b m] H; try discriminate H; auto. cbn in H. apply andb_prop in H. destruct H as [H1 H2]. apply andb_prop in H2. destruct H2 as [H2 H3]. apply qeq_spec in H2. subst. f_equal. apply IH. now rewrite H1, H3.
Qed.
(** The generator is not rewound: the second fit on the same data draws other rows. *)
Lemma not_started_over : exists P M c X h e f0 e0 f1 h1 e1 f2 h2 e2 x v v' f1' f2',
  forest_new P c (Some X) (Some 0) None None h e = Ok (f0, e0) /\ forest_fit M P c f0 (Some X, Some 0) h e0 = Ok (f1, h1, e1) /\
  forest_fit M P c (forest_reset c f1 None) (Some X, Some 0) h1 e1 = Ok (f2, h2, e2) /\ h1 = h /\
  forest_predict c f1 x = Ok (FReg v, f1') /\ forest_predict c f2 x = Ok (FReg v', f2') /\ v <> v'.
Proof.
  exists P1, M0, fc_re, X6, (heap_of T6), env0.
  assert (K : check (forest_new P1 fc_re (Some X6) (Some 0) None None (heap_of T6) env0) (fun a =>
    check (forest_fit M0 P1 fc_re (fst a) (Some X6, Some 0) (heap_of T6) (snd a)) (fun b =>
      match snd (fst b) with [la] => (negb (la_int la)) && same_vals (la_vals la) T6 | _ => false end &&
      check (forest_fit M0 P1 fc_re (forest_reset fc_re (fst (fst b)) None) (Some X6, Some 0) (snd (fst b)) (snd b)) (fun d =>
        existsb (fun x => match reg_at fc_re (fst (fst b)) x, reg_at fc_re (fst (fst d)) x with Some v, Some v' => negb (qeq v v') | _, _ => false end) X6))) = true) by (vm_compute; reflexivity).
  take K. take K. destruct x as [f0 e0], x0 as [[f1 h1] e1]. cbn [fst snd] in *. apply andb_prop in K. destruct K as [K0 K]. take K. destruct x as [[f2 h2] e2]. cbn [fst snd] in *. apply existsb_exists in K. destruct K as [x [_ K]].
  unfold reg_at in K. destruct (forest_predict fc_re f1 x) as [[[l q|v|q|] f1']|] eqn:E1; try discriminate K. destruct (forest_predict fc_re f2 x) as [[[l q|v'|q|] f2']|] eqn:E2; try discriminate K.
  exists f0, e0, f1, h1, e1, f2, h2, e2, x, v, v', f1', f2'. repeat (split; [assumption|]). split.
  - destruct h1 as [|la [|]]; try discriminate K0. apply andb_prop in K0. destruct K0 as [A B]. destruct la as [i l]. cbn in A, B. destruct i; [discriminate A|]. unfold heap_of. do 2 f_equal. now apply same_vals_eq.
  - split; [assumption|]. split; [assumption|]. intros ->. rewrite (proj2 (qeq_spec v' v') eq_refl) in K. discriminate K.
Qed.
(** Three trees were grown, and the forest is fitted again, with and without a reset. *)
Lemma refit_example : exists f h e f1 h1 e1 f2 h2 e2, frun P1 fc_re X6 (heap_of T6) None None = Ok (f, h, e) /\
  forest_fit M0 P1 fc_re f (Some X6, Some 0) h e = Ok (f1, h1, e1) /\ forest_fit M0 P1 fc_re (forest_reset fc_re f (Some 7%Z)) (Some X6, Some 0) h e = Ok (f2, h2, e2) /\
  0 < f_queries f /\ 0 < f_queries f2 /\ length (f_trees f) = 3 /\ length (f_trees f2) = 3 /\ f_trees f1 = f_trees f2 /\ f_queries f1 = f_queries f + f_queries f2.
Proof.
  assert (K : check (frun P1 fc_re X6 (heap_of T6) None None) (fun b =>
      check (forest_fit M0 P1 fc_re (forest_reset fc_re (fst (fst b)) (Some 7%Z)) (Some X6, Some 0) (snd (fst b)) (snd b)) (fun d =>
        (0 <? f_queries (fst (fst b))) && (0 <? f_queries (fst (fst d))) && (length (f_trees (fst (fst b))) =? 3) && (length (f_trees (fst (fst d))) =? 3))) = true) by (vm_compute; reflexivity).
  take K. take K. destruct x as [[f h] e], x0 as [[f2 h2] e2]. cbn [fst snd] in *. repeat (apply andb_prop in K; destruct K as [K ?]).
  repeat match goal with H : (_ <? _) = true |- _ => apply Nat.ltb_lt in H | H : (_ =? _) = true |- _ => apply Nat.eqb_eq in H end.
  exists f, h, e, (more_queries (f_queries f) f2), h2, e2, f2, h2, e2. split; [assumption|]. split; [|repeat (split; [assumption|]); split; reflexivity].
  rewrite (fit_without_reset M0 P1 fc_re f (Some 7%Z)). match goal with H : forest_fit _ _ _ _ _ _ _ = _ |- _ => rewrite H end. reflexivity.
Qed.

(** Runs behind the examples and refutations of PropsForest.v. *)
From Coq Require Import List Arith Bool ZArith QArith Qcanon Lia.
From Verif Require Import Base Num Rng Histogram Utils Criteria Solvers Tree Forest Samples Spec SolverSpec TreeSpec ForestSpec NumFacts ListFacts HistFacts TreeTotal TreeWitness ForestFacts ForestThms ForestMore ForestTotal ForestLife ForestRun.
Import ListNotations.
Local Open Scope nat_scope.

(** A generator that produces different streams for different seeds. *)
Definition P1 : prng :=
  {| seed_gen := fun s => [s; 3; 1; s + 2; 2; 5; s + 1; 0; 4; 1; 3; 2; s; 5; 4; 1; 1; 0; 2; 3; s + 3; 4; 0; 5]; seed_np := fun s => [s + 1; s + 2; s + 4; 9; 4; s]; seed_py := fun s => [s] |}.
(** Exact search over all values, up to three levels. *)
Definition fcfg0 (cl : bool) (n : nat) (boot : bool) (fs : fsub) (imp : Qc) (boost : bool) (lr : option Qc) : fcfg :=
  {| fc_class := cl; fc_n := n; fc_max_depth := DFin 3; fc_bootstrap := boot; fc_fsub := fs; fc_min_split := 2; fc_min_imp := imp;
     fc_max_leaves := None; fc_bin := IDENTITY; fc_nb := 10; fc_crit := if cl then GINI else MSE; fc_splitter := BEST; fc_solver := EXACT; fc_seed := 3;
     fc_repl := false; fc_boosting := boost; fc_lr := lr; fc_make_discrete := false; fc_precomp_minmax := false; fc_log_split := false;
     fc_dyn_eps := false; fc_eps := 0%Qc; fc_oob := boot; fc_batch := 6; fc_alpha_N := 1%Qc; fc_alpha_F := 1%Qc |}.
Definition fc_cl := fcfg0 true 3 true FSNone 0%Qc false None.
Definition fc_re := fcfg0 false 3 true FSNone 0%Qc false None.
Definition fc_bo := fcfg0 false 3 false FSNone 0%Qc true (Some (frac 1 2)).
Definition fc_one := fcfg0 false 1 false (FSInt 1) 0%Qc false None.
Definition fc_picky := fcfg0 false 1 false FSNone (z (-100)) false None.

(** Each tree gets four of six rows and one of two columns. *)
Definition fc_part : fcfg :=
  {| fc_class := false; fc_n := 3; fc_max_depth := DFin 3; fc_bootstrap := false; fc_fsub := FSNone; fc_min_split := 2; fc_min_imp := 0%Qc;
     fc_max_leaves := None; fc_bin := LINEAR; fc_nb := 4; fc_crit := MSE; fc_splitter := BEST; fc_solver := EXACT; fc_seed := 3;
     fc_repl := false; fc_boosting := false; fc_lr := None; fc_make_discrete := false; fc_precomp_minmax := true; fc_log_split := false;
     fc_dyn_eps := false; fc_eps := 0%Qc; fc_oob := false; fc_batch := 6; fc_alpha_N := frac 3 4; fc_alpha_F := frac 1 2 |}.

Definition heap_of (l : list Qc) : heap := [{| la_int := false; la_vals := l |}].
(** Rows 4 and 5 are left out of the first two samples. *)
Definition P2 : prng :=
  {| seed_gen := fun s => [0; 1; 2; 3; 0; 1; 0; 3; 2; 1; 3; 2; 0; 1; 2; 3; 4; 5]; seed_np := fun s => [s + 1; s + 2; s + 4; 9; 4; s]; seed_py := fun s => [s] |}.
(** Construct and fit. *)
Definition frun (P : prng) (c : fcfg) (X : list (list Qc)) (h : heap) (classes : option cdict) (budget : option Z) : res (forest * heap * env) :=
  do fe <- forest_new P c (Some X) (Some 0) classes budget h env0; forest_fit M0 P c (fst fe) (None, None) h (snd fe).

Lemma via {A} (r : res A) (p : A -> bool) : check r p = true -> exists a, r = Ok a /\ p a = true.
Proof. destruct r; [eauto|discriminate]. Qed.
Ltac take K := let Q := fresh in pose proof (via _ _ K) as Q; clear K; destruct Q as [? [? K]]; cbv beta in K.

(** The out-of-bag answers on the rows of X. *)
Definition oobV (f : forest) (X : list (list Qc)) (i : nat) : list pred :=
  match mapM (fun ct => answer (tree_predict (fst ct) (snd ct) (nth i X []))) (left_out f i) with Ok l => l | Err _ => [] end.
Definition oobV_ok (f : forest) (X : list (list Qc)) (n : nat) : bool :=
  forallb (fun i => check (mapM (fun ct => answer (tree_predict (fst ct) (snd ct) (nth i X []))) (left_out f i)) (fun _ => true)) (seq 0 n).
Lemma oobV_votes f X n : oobV_ok f X n = true -> forall i, i < n -> oob_votes f (nth i X []) i (oobV f X i).
Proof.
  intros H i L. unfold oobV_ok in H. rewrite forallb_forall in H. specialize (H i ltac:(apply in_seq; lia)). apply via in H. destruct H as [ps [E _]]. unfold oob_votes, oobV. rewrite E. now apply mapM_Forall2 in E.
Qed.
Definition oob_classb (V : nat -> list pred) (K i j : nat) : bool :=
  (j <? K) && forallb (fun j' => qle (oob_mean_prob V i j') (oob_mean_prob V i j)) (seq 0 K) && forallb (fun j' => qlt (oob_mean_prob V i j') (oob_mean_prob V i j)) (seq 0 j).
Lemma oob_classb_spec V K i j : oob_classb V K i j = true -> oob_class V K i j.
Proof.
  unfold oob_classb. intros H. apply andb_prop in H. destruct H as [H H3]. apply andb_prop in H. destruct H as [H1 H2]. apply Nat.ltb_lt in H1. rewrite forallb_forall in H2, H3. split; auto. split; intros j' L.
  - apply qle_spec, H2, in_seq. lia.
  - apply qlt_spec, H3, in_seq. lia.
Qed.
Definition xneq (a b : xn) : bool := match a, b with Fin x, Fin y => negb (qeq x y) | Fin _, _ => true | _, Fin _ => true | _, _ => false end.
Lemma xneq_spec a b : xneq a b = true -> a <> b.
Proof. intros H ->. destruct b; cbn in H; try discriminate H. rewrite (proj2 (qeq_spec q q) eq_refl) in H. discriminate H. Qed.

(** ** C38: a class dictionary that is not in order *)
Definition swapped : cdict := [(z 0, 1); (z 1, 0)].
Lemma swapped_good : good_classes swapped.
Proof.
  split; [|split].
  - repeat constructor; cbn; intros I; repeat (destruct I as [I|I]; [discriminate I|]); destruct I.
  - repeat constructor; cbn; intros I; repeat (destruct I as [I|I]; [discriminate I|]); destruct I.
  - intros k i [E|[E|[]]]; injection E as _ <-; cbn; lia.
Qed.
Lemma label_not_likely : exists P M c X h cls e f0 e0 f h1 e1 x l avg f' i q q',
  forest_new P c (Some X) (Some 0) (Some cls) None h e = Ok (f0, e0) /\ forest_fit M P c f0 (None, None) h e0 = Ok (f, h1, e1) /\
  good_classes cls /\ forest_predict c f x = Ok (FClass l avg, f') /\ In (l, i) cls /\ nth_error avg i = Some q /\ In q' avg /\ (q < q')%Qc.
Proof.
  exists P1, M0, fc_cl, X6, (heap_of Y6), swapped, env0.
  assert (K : check (forest_new P1 fc_cl (Some X6) (Some 0) (Some swapped) None (heap_of Y6) env0) (fun a =>
    check (forest_fit M0 P1 fc_cl (fst a) (None, None) (heap_of Y6) (snd a)) (fun b =>
      check (forest_predict fc_cl (fst (fst b)) [z 1; z 10]) (fun p => match fst p with FClass l [q0; q1] => qeq l (z 1) && qlt q0 q1 | _ => false end))) = true) by (vm_compute; reflexivity).
  take K. take K. take K. destruct x as [f0 e0], x0 as [[f h1] e1], x1 as [p f']. cbn [fst snd] in *. destruct p as [l avg|v|v|]; try discriminate K. destruct avg as [|q0 [|q1 [|q2 avg]]]; try discriminate K. apply andb_prop in K. destruct K as [K1 K2]. apply qeq_spec in K1. apply qlt_spec in K2.
  exists f0, e0, f, h1, e1, [z 1; z 10], l, [q0; q1], f', 0, q0, q1. split; [assumption|]. split; [assumption|]. split; [apply swapped_good|]. split; [assumption|]. subst l. split; [cbn; auto|]. split; [reflexivity|]. split; [cbn; auto|exact K2].
Qed.

(** ** C43: boosting overwrites the caller's labels *)
Definition same_vals (l l' : list Qc) : bool := (length l =? length l') && forallb (fun p => qeq (fst p) (snd p)) (combine l l').
Lemma same_vals_refl l : same_vals l l = true.
Proof. unfold same_vals. rewrite Nat.eqb_refl. cbn. induction l as [|x l IH]; cbn; auto. rewrite (proj2 (qeq_spec x x) eq_refl). exact IH. Qed.
Lemma labels_overwritten : exists P M c X h e f0 e0 f h1 e1,
  forest_new P c (Some X) (Some 0) None None h e = Ok (f0, e0) /\ forest_fit M P c f0 (None, None) h e0 = Ok (f, h1, e1) /\
  nth_error h1 0 <> nth_error h 0.
Proof.
  exists P1, M0, fc_bo, X6, (heap_of T6), env0.
  assert (K : check (forest_new P1 fc_bo (Some X6) (Some 0) None None (heap_of T6) env0) (fun a =>
    check (forest_fit M0 P1 fc_bo (fst a) (None, None) (heap_of T6) (snd a)) (fun b =>
      match nth_error (snd (fst b)) 0 with Some la => negb (same_vals (la_vals la) T6) | None => false end)) = true) by (vm_compute; reflexivity).
  take K. take K. destruct x as [f0 e0], x0 as [[f h1] e1]. cbn [fst snd] in *. exists f0, e0, f, h1, e1. split; [assumption|]. split; [assumption|].
  destruct (nth_error h1 0) as [la|]; [|discriminate K]. cbn [heap_of nth_error]. intros E. injection E as ->. cbn [la_vals] in K. rewrite same_vals_refl in K. discriminate K.
Qed.

(** ** C46 *)
Lemma oob_not_mse : exists P M c X h e f0 e0 f h1 e1 ys s f' V,
  forest_new P c (Some X) (Some 0) None None h e = Ok (f0, e0) /\ forest_fit M P c f0 (None, None) h e0 = Ok (f, h1, e1) /\
  fc_class c = false /\ nth_error h1 0 = Some {| la_int := false; la_vals := ys |} /\ get_oob_score c f h1 None = Ok (s, f') /\
  (forall i, i < length ys -> oob_votes f (nth i X []) i (V i)) /\ s <> oob_mse V ys.
Proof.
  exists P2, M0, fc_re, X6, (heap_of T6), env0.
  assert (K : check (forest_new P2 fc_re (Some X6) (Some 0) None None (heap_of T6) env0) (fun a =>
    check (forest_fit M0 P2 fc_re (fst a) (None, None) (heap_of T6) (snd a)) (fun b =>
      check (get_oob_score fc_re (fst (fst b)) (snd (fst b)) None) (fun s => oobV_ok (fst (fst b)) X6 6 && xneq (fst s) (oob_mse (oobV (fst (fst b)) X6) T6)))) = true) by (vm_compute; reflexivity).
  take K. take K. take K. destruct x as [f0 e0], x0 as [[f h1] e1], x1 as [s f']. cbn [fst snd] in *. apply andb_prop in K. destruct K as [K1 K2].
  exists f0, e0, f, h1, e1, T6, s, f', (oobV f X6). split; [assumption|]. split; [assumption|]. split; [reflexivity|]. split; [destruct (labels_untouched _ _ _ _ _ _ _ _ _ _ H0) as [U _]; rewrite U; [reflexivity|left; reflexivity|cbn; lia]|]. split; [assumption|]. split; [apply (oobV_votes f X6 6 K1)|now apply xneq_spec].
Qed.

Lemma oob_not_accuracy : exists P M c X h e f0 e0 f h1 e1 r ys f' V,
  forest_new P c (Some X) (Some 0) None None h e = Ok (f0, e0) /\ forest_fit M P c f0 (None, None) h e0 = Ok (f, h1, e1) /\
  fc_class c = true /\ f_org f = Some r /\ nth_error h1 r = Some {| la_int := true; la_vals := ys |} /\ get_oob_score c f h1 None = Ok (Fin 0, f') /\
  (forall i, i < length ys -> oob_votes f (nth i X []) i (V i)) /\ covered V (length ys) <> [] /\
  (forall i, In i (covered V (length ys)) -> exists j, oob_class V (length (f_classes f)) i j /\ In (nth i ys 0%Qc, j) (f_classes f)).
Proof.
  set (Y := [z 3; z 3; z 3; z 4; z 4; z 4]). exists P2, M0, fc_cl, X6, (heap_of Y), env0.
  assert (K : check (forest_new P2 fc_cl (Some X6) (Some 0) None None (heap_of Y) env0) (fun a =>
    check (forest_fit M0 P2 fc_cl (fst a) (None, None) (heap_of Y) (snd a)) (fun b =>
      check (opt_res (f_org (fst (fst b))) TypeError) (fun r =>
      check (nth_res (snd (fst b)) r) (fun la =>
      check (get_oob_score fc_cl (fst (fst b)) (snd (fst b)) None) (fun s =>
         la_int la && match fst s with Fin q => qeq q 0%Qc | _ => false end && oobV_ok (fst (fst b)) X6 (length (la_vals la)) &&
         negb (length (covered (oobV (fst (fst b)) X6) (length (la_vals la))) =? 0) &&
         forallb (fun i => existsb (fun kj => qeq (fst kj) (nth i (la_vals la) 0%Qc) && oob_classb (oobV (fst (fst b)) X6) (length (f_classes (fst (fst b)))) i (snd kj)) (f_classes (fst (fst b))))
           (covered (oobV (fst (fst b)) X6) (length (la_vals la)))))))) = true) by (vm_compute; reflexivity).
  take K. take K. take K. take K. take K. destruct x as [f0 e0], x0 as [[f h1] e1], x3 as [s f'], x2 as [ii ys]. cbn [fst snd la_int la_vals] in *.
  apply andb_prop in K. destruct K as [K K5]. apply andb_prop in K. destruct K as [K K4]. apply andb_prop in K. destruct K as [K K3]. apply andb_prop in K. destruct K as [K1 K2].
  destruct s as [s| | |]; try discriminate K2. apply qeq_spec in K2. subst s ii.
  exists f0, e0, f, h1, e1, x1, ys, f', (oobV f X6). split; [assumption|]. split; [assumption|]. split; [reflexivity|]. split; [eapply opt_res_ok; eassumption|]. split; [apply nth_res_ok; assumption|]. split; [assumption|]. split; [apply oobV_votes; assumption|].
  split; [intros Q; rewrite Q in K4; discriminate K4|].
  intros i I. rewrite forallb_forall in K5. specialize (K5 i I). apply existsb_exists in K5. destruct K5 as [[k j] [IN B]]. cbn [fst snd] in B. apply andb_prop in B. destruct B as [B1 B2]. apply qeq_spec in B1. subst k. exists j. split; [now apply oob_classb_spec|assumption].
Qed.

(** ** C47: a leaf that was evaluated but not split *)
Lemma unsplit_counted : exists P M c X h e f0 e0 f h1 e1 arr f' j v,
  forest_new P c (Some X) (Some 0) None None h e = Ok (f0, e0) /\ forest_fit M P c f0 (None, None) h e0 = Ok (f, h1, e1) /\
  calculate_mdi f = Ok (arr, f') /\ nth_error arr j = Some v /\ v <> xtotal (flat_map (fun ct => made (snd ct) j) (f_trees f)).
Proof.
  exists P1, M0, fc_picky, X6, (heap_of T6), env0.
  assert (K : check (forest_new P1 fc_picky (Some X6) (Some 0) None None (heap_of T6) env0) (fun a =>
    check (forest_fit M0 P1 fc_picky (fst a) (None, None) (heap_of T6) (snd a)) (fun b =>
      check (calculate_mdi (fst (fst b))) (fun m => match nth_error (fst m) 0 with Some v => xneq v (xtotal (flat_map (fun ct => made (snd ct) 0) (f_trees (fst (fst b))))) | None => false end))) = true) by (vm_compute; reflexivity).
  take K. take K. take K. destruct x as [f0 e0], x0 as [[f h1] e1], x1 as [arr f']. cbn [fst snd] in *. destruct (nth_error arr 0) as [v|] eqn:E; [|discriminate K].
  exists f0, e0, f, h1, e1, arr, f', 0, v. split; [assumption|]. split; [assumption|]. split; [assumption|]. split; [assumption|]. now apply xneq_spec.
Qed.

(** ** C48: importance after another fit *)
Definition flipped6 : list (list Qc) := map (fun r => rev r) X6.
Lemma stale_importance : exists P M c X X' h e f0 e0 f1 h1 e1 arr f2 f3 h3 e3 arr' f4,
  forest_new P c (Some X) (Some 0) None None h e = Ok (f0, e0) /\ forest_fit M P c f0 (None, None) h e0 = Ok (f1, h1, e1) /\
  calculate_mdi f1 = Ok (arr, f2) /\ forest_fit M P c (forest_reset c f2 None) (Some X', Some 0) h1 e1 = Ok (f3, h3, e3) /\
  calculate_mdi f3 = Ok (arr', f4) /\ ~ importance X' arr' f3.
Proof.
  exists P1, M0, fc_re, X6, flipped6, (heap_of T6), env0.
  assert (K : check (forest_new P1 fc_re (Some X6) (Some 0) None None (heap_of T6) env0) (fun a =>
    check (forest_fit M0 P1 fc_re (fst a) (None, None) (heap_of T6) (snd a)) (fun b =>
      check (calculate_mdi (fst (fst b))) (fun m => 
        check (forest_fit M0 P1 fc_re (forest_reset fc_re (snd m) None) (Some flipped6, Some 0) (snd (fst b)) (snd b)) (fun d =>
          check (calculate_mdi (fst (fst d))) (fun m' => match nth_error (fst m') 0 with Some v => xneq v (xtotal (flat_map (fun ct => evaluated (snd ct) 0) (f_trees (fst (fst d))))) | None => false end))))) = true) by (vm_compute; reflexivity).
  take K. take K. take K. take K. take K. destruct x as [f0 e0], x0 as [[f1 h1] e1], x1 as [arr f2], x2 as [[f3 h3] e3], x3 as [arr' f4]. cbn [fst snd] in *. destruct (nth_error arr' 0) as [v|] eqn:E; [|discriminate K].
  exists f0, e0, f1, h1, e1, arr, f2, f3, h3, e3, arr', f4. split; [assumption|]. split; [assumption|]. split; [assumption|]. split; [assumption|]. split; [assumption|]. intros [_ I]. specialize (I _ _ E). revert I. now apply xneq_spec.
Qed.

(** ** C49: the budget after reset *)
Lemma reset_keeps_budget : exists P M c X h e f0 e0 f1 h1 e1 f2 h2 e2 g0 d0 g h3 e3,
  forest_new P c (Some X) (Some 0) None (Some 5%Z) h e = Ok (f0, e0) /\ forest_fit M P c f0 (None, None) h e0 = Ok (f1, h1, e1) /\
  forest_fit M P c (forest_reset c f1 (Some 1000%Z)) (Some X, Some 0) h1 e1 = Ok (f2, h2, e2) /\ f_trees f2 = [] /\ (forall b, f_budget f2 = Some b -> (b < 1000)%Z) /\
  forest_new P c (Some X) (Some 0) None (Some 1000%Z) h e = Ok (g0, d0) /\ forest_fit M P c g0 (None, None) h d0 = Ok (g, h3, e3) /\ f_trees g <> [].
Proof.
  exists P1, M0, fc_re, X6, (heap_of T6), env0.
  assert (K : check (forest_new P1 fc_re (Some X6) (Some 0) None (Some 5%Z) (heap_of T6) env0) (fun a =>
    check (forest_fit M0 P1 fc_re (fst a) (None, None) (heap_of T6) (snd a)) (fun b =>
      check (forest_fit M0 P1 fc_re (forest_reset fc_re (fst (fst b)) (Some 1000%Z)) (Some X6, Some 0) (snd (fst b)) (snd b)) (fun d =>
        match f_trees (fst (fst d)), f_budget (fst (fst d)) with [], Some k => (k <? 1000)%Z | _, _ => false end))) = true) by (vm_compute; reflexivity).
  assert (L : check (forest_new P1 fc_re (Some X6) (Some 0) None (Some 1000%Z) (heap_of T6) env0) (fun a =>
    check (forest_fit M0 P1 fc_re (fst a) (None, None) (heap_of T6) (snd a)) (fun b => match f_trees (fst (fst b)) with [] => false | _ => true end)) = true) by (vm_compute; reflexivity).
  take K. take K. take K. take L. take L. destruct x as [f0 e0], x0 as [[f1 h1] e1], x1 as [[f2 h2] e2], x2 as [g0 d0], x3 as [[g h3] e3]. cbn [fst snd] in *.
  destruct (f_trees f2) eqn:E; [|discriminate K]. destruct (f_budget f2) as [k|] eqn:EB; [|discriminate K]. apply Z.ltb_lt in K.
  exists f0, e0, f1, h1, e1, f2, h2, e2, g0, d0, g, h3, e3. split; [assumption|]. split; [assumption|]. split; [assumption|]. split; [assumption|]. split; [intros b Q; congruence|].
  split; [assumption|]. split; [assumption|]. intros Q. rewrite Q in L. discriminate L.
Qed.

(** ** C50: a draw from the global generator between construction and fit *)
Lemma draw_between : exists P M c X h e f0 e0 f h1 e1 f' h1' e1' x v v' g g',
  forest_new P c (Some X) (Some 0) None None h e = Ok (f0, e0) /\ forest_fit M P c f0 (None, None) h e0 = Ok (f, h1, e1) /\
  forest_fit M P c f0 (None, None) h (set_np e0 (snd (draw (e_np e0)))) = Ok (f', h1', e1') /\
  forest_predict c f x = Ok (FReg v, g) /\ forest_predict c f' x = Ok (FReg v', g') /\ v <> v'.
Proof.
  exists P1, M0, fc_one, X6, (heap_of T6), env0.
  assert (K : check (forest_new P1 fc_one (Some X6) (Some 0) None None (heap_of T6) env0) (fun a =>
    check (forest_fit M0 P1 fc_one (fst a) (None, None) (heap_of T6) (snd a)) (fun b =>
     check (forest_fit M0 P1 fc_one (fst a) (None, None) (heap_of T6) (set_np (snd a) (snd (draw (e_np (snd a)))))) (fun d =>
      check (forest_predict fc_one (fst (fst b)) [z 1; z 10]) (fun p => check (forest_predict fc_one (fst (fst d)) [z 1; z 10]) (fun p' =>
        match fst p, fst p' with FReg v, FReg v' => negb (qeq v v') | _, _ => false end))))) = true) by (vm_compute; reflexivity).
  take K. take K. take K. take K. take K. destruct x as [f0 e0], x0 as [[f h1] e1], x1 as [[f' h1'] e1'], x2 as [p g], x3 as [p' g']. cbn [fst snd] in *. destruct p as [| v| |]; try discriminate K. destruct p' as [| v'| |]; try discriminate K.
  exists f0, e0, f, h1, e1, f', h1', e1', [z 1; z 10], v, v', g, g'. split; [assumption|]. split; [assumption|]. split; [assumption|]. split; [assumption|]. split; [assumption|]. intros ->. rewrite (proj2 (qeq_spec v' v') eq_refl) in K. discriminate K.
Qed.

(** ** Hypotheses of the theorems *)
Lemma alpha1 : qlt 1%Qc 1%Qc || qlt 1%Qc 1%Qc = false. Proof. reflexivity. Qed.
Lemma some_rows_ex : some_rows fc_cl (length X6) /\ some_rows fc_re (length X6) /\ some_rows fc_bo (length X6) /\ all_rows fc_bo.
Proof.
  assert (G : forall c, fc_alpha_N c = 1%Qc -> fc_alpha_F c = 1%Qc -> some_rows c (length X6)).
  { intros c E1 E2. split; [cbn; lia|]. rewrite E1, E2, alpha1. discriminate. }
  split; [now apply G|]. split; [now apply G|]. split; [now apply G|]. split; [reflexivity|]. split; apply Qcle_refl.
Qed.
Lemma tidy_trainable c f h data W b Y : fc_alpha_N c = 1%Qc -> fc_alpha_F c = 1%Qc -> fc_fsub c = FSNone \/ fc_fsub c = FSInt 1 -> fc_max_depth c <> DNone -> fc_max_leaves c = None ->
  (fc_boosting c = true -> fc_class c = false /\ fc_lr c <> None) -> f_dd f = None -> f_minmax f = None -> f_data f = Some data -> f_org f = Some 0 -> f_new f = Some 0 -> h = [{| la_int := b; la_vals := Y |}] -> length Y = length data ->
  1 <= length data -> 1 <= W -> rectangular W data -> (fc_class c = true -> (forall y, In y Y -> In (trunc y) (map fst (f_classes f))) /\ forall k i, In (k, i) (f_classes f) -> i < length (f_classes f)) ->
  forest_trainable c f (None, None) h data W.
Proof.
  intros A1 A2 FS MD ML BO DD MM FD FO FN -> LY LD LW R CL. constructor; cbn [fst snd]; auto.
  - tauto.
  - exists 0, 0, {| la_int := b; la_vals := Y |}, {| la_int := b; la_vals := Y |}. unfold fit_ref, boost_ref. cbn [snd]. rewrite FO, FN. repeat (split; [reflexivity || assumption|]). intros Q. apply (CL Q).
  - intros Q. apply (CL Q).
  - rewrite A1, A2, alpha1. discriminate.
  - destruct FS as [-> | ->]; auto. unfold feats_per_tree. rewrite A1, A2, alpha1. lia.
  - rewrite ML. discriminate.
  - rewrite DD. exact I.
Qed.
Lemma X6_rect : rectangular 2 X6.
Proof. intros r I. cbn in I. repeat (destruct I as [<-|I]; [reflexivity|]). destruct I. Qed.
Definition start (P : prng) (c : fcfg) (Y : list Qc) : forest * env :=
  match forest_new P c (Some X6) (Some 0) None None (heap_of Y) env0 with Ok r => r | Err _ => ({| f_data := None; f_org := None; f_new := None; f_trees := []; f_classes := []; f_ncl := 0; f_dd := None; f_minmax := None;
    f_budget := None; f_queries := 0; f_oob := []; f_mdg := None; f_gen := [] |}, env0) end.
Lemma trainable_ex : forest_trainable fc_cl (fst (start P1 fc_cl Y6)) (None, None) (heap_of Y6) X6 2 /\ forest_trainable fc_re (fst (start P1 fc_re T6)) (None, None) (heap_of T6) X6 2 /\
  forest_trainable fc_bo (fst (start P1 fc_bo T6)) (None, None) (heap_of T6) X6 2 /\ forest_trainable fc_one (fst (start P1 fc_one T6)) (None, None) (heap_of T6) X6 2.
Proof.
  assert (CL : (forall y, In y Y6 -> In (trunc y) [z 0; z 1]) /\ forall k i, In (k, i) [(z 0, 0); (z 1, 1)] -> i < 2).
  { split.
    - intros y I. cbn in I. repeat (destruct I as [<-|I]; [cbn; first [left; apply Qc_is_canon; reflexivity | right; left; apply Qc_is_canon; reflexivity]|]). destruct I.
    - intros k i [E|[E|[]]]; injection E as _ <-; lia. }
  split; [|split; [|split]]; (eapply tidy_trainable; [reflexivity|reflexivity|cbn; auto|discriminate|reflexivity|cbn; intros Q; first [discriminate Q | split; [reflexivity|discriminate]]|reflexivity|reflexivity|reflexivity|reflexivity|reflexivity|reflexivity|reflexivity|cbn; lia|lia|apply X6_rect|]).
  - intros _. exact CL.
  - intros Q. discriminate Q.
  - intros Q. discriminate Q.
  - intros Q. discriminate Q.
Qed.
Lemma bins_ex c Y : fc_bin c = IDENTITY -> forest_bins c X6 Y 2 2.
Proof. intros E. split; rewrite E; [intros [Q|Q]; discriminate Q|exact I]. Qed.
(** The runs of the examples: several trees, real splits, informative predictions. *)
Definition several (f : forest) : bool := (length (f_trees f) =? 3) && forallb (fun ct => 1 <=? t_splits (snd ct)) (f_trees f).
Lemma runs_ex :
  check (frun P1 fc_cl X6 (heap_of Y6) None None) (fun r => several (fst (fst r)) && check (forest_predict fc_cl (fst (fst r)) [z 3; z 10]) (fun p => match fst p with FClass l [a; b] => qlt 0 a && qlt 0 b | _ => false end)) = true /\
  check (frun P1 fc_re X6 (heap_of T6) None None) (fun r => several (fst (fst r)) && check (forest_predict fc_re (fst (fst r)) [z 3; z 10]) (fun p => match fst p with FReg v => true | _ => false end)) = true /\
  check (frun P1 fc_bo X6 (heap_of T6) None None) (fun r => (length (f_trees (fst (fst r))) =? 3) && check (forest_predict fc_bo (fst (fst r)) [z 3; z 10]) (fun p => match fst p with FReg v => true | _ => false end)) = true /\
  check (frun P1 fc_re X6 (heap_of T6) None (Some 15%Z)) (fun r => (length (f_trees (fst (fst r))) =? 1) && (match f_budget (fst (fst r)) with Some b => (b <? 15)%Z | None => false end)) = true.
Proof. repeat split; vm_compute; reflexivity. Qed.
Lemma scores_ex :
  check (frun P1 fc_cl X6 (heap_of Y6) None None) (fun r => check (get_oob_score fc_cl (fst (fst r)) (snd (fst r)) None) (fun s => xlt (Fin 0) (fst s)) && (length (f_oob (fst (fst r))) =? 3)) = true /\
  check (frun P1 fc_re X6 (heap_of T6) None None) (fun r => check (get_oob_score fc_re (fst (fst r)) (snd (fst r)) None) (fun s => xlt (Fin 0) (fst s)) && check (calculate_mdi (fst (fst r))) (fun m => existsb (fun x => xlt x (Fin 0)) (fst m))) = true.
Proof. repeat split; vm_compute; reflexivity. Qed.

(** ** C51 *)
Lemma entropy_ignored : exists P M c X h e f0 e0 f h1 e1,
  forest_new P c (Some X) (Some 0) None None h e = Ok (f0, e0) /\ forest_fit M P c f0 (None, None) h e0 = Ok (f, h1, e1) /\
  fc_class c = true /\ fc_crit c = ENTROPY /\ f_trees f <> [] /\ forall ct, In ct (f_trees f) -> tc_crit (fst ct) = GINI.
Proof.
  set (c := with_criterion fc_cl ENTROPY BEST). exists P1, M0, c, X6, (heap_of Y6), env0.
  assert (K : check (forest_new P1 c (Some X6) (Some 0) None None (heap_of Y6) env0) (fun a =>
    check (forest_fit M0 P1 c (fst a) (None, None) (heap_of Y6) (snd a)) (fun b => negb (length (f_trees (fst (fst b))) =? 0))) = true) by (vm_compute; reflexivity).
  take K. take K. destruct x as [f0 e0], x0 as [[f h1] e1]. cbn [fst snd] in *. exists f0, e0, f, h1, e1. split; [assumption|]. split; [assumption|]. split; [reflexivity|]. split; [reflexivity|].
  split; [intros Q; rewrite Q in K; discriminate K|]. intros ct I. apply (proj1 (tree_criteria _ _ _ _ _ _ _ _ _ _ H0 ct I)).
Qed.

(** ** C121, C122, C125 *)
Definition fc_bob := fcfg0 false 3 true FSNone 0%Qc true (Some (frac 1 2)).
Definition oob_against (V : nat -> list pred) (ys : list Qc) : xn :=
  mean_over (covered V (length ys)) (fun i => let e := (nth i ys 0 - mean (map value_of (V i)) / Nq (length (V i)))%Qc in (e * e)%Qc).
Lemma course_ex :
  check (frun P1 fc_bob X6 (heap_of T6) None None) (fun r => several (fst (fst r)) && match nth_error (snd (fst r)) 0 with Some la => negb (same_vals (la_vals la) T6) | None => false end) = true /\
  check (frun P1 fc_re X6 (heap_of T6) None (Some 15%Z)) (fun r => (length (f_trees (fst (fst r))) =? 1) && match f_budget (fst (fst r)) with Some b => (b <=? 0)%Z | None => false end) = true.
Proof. split; vm_compute; reflexivity. Qed.

Lemma boosted_oob_residuals : exists P M c X ys e f0 e0 f h1 e1 s f' V,
  forest_new P c (Some X) (Some 0) None None [{| la_int := false; la_vals := ys |}] e = Ok (f0, e0) /\ forest_fit M P c f0 (None, None) [{| la_int := false; la_vals := ys |}] e0 = Ok (f, h1, e1) /\
  fc_class c = false /\ fc_boosting c = true /\ get_oob_score c f h1 None = Ok (s, f') /\ (forall i, i < length ys -> oob_votes f (nth i X []) i (V i)) /\
  s <> mean_over (covered V (length ys)) (fun i => let e := (nth i ys 0 - mean (map value_of (V i)) / Nq (length (V i)))%Qc in (e * e)%Qc).
Proof.
  exists P1, M0, fc_bob, X6, T6, env0.
  assert (K : check (forest_new P1 fc_bob (Some X6) (Some 0) None None (heap_of T6) env0) (fun a =>
    check (forest_fit M0 P1 fc_bob (fst a) (None, None) (heap_of T6) (snd a)) (fun b =>
      check (get_oob_score fc_bob (fst (fst b)) (snd (fst b)) None) (fun s => oobV_ok (fst (fst b)) X6 6 && xneq (fst s) (oob_against (oobV (fst (fst b)) X6) T6)))) = true) by (vm_compute; reflexivity).
  take K. take K. take K. destruct x as [f0 e0], x0 as [[f h1] e1], x1 as [s f']. cbn [fst snd] in *. apply andb_prop in K. destruct K as [K1 K2].
  exists f0, e0, f, h1, e1, s, f', (oobV f X6). split; [assumption|]. split; [assumption|]. split; [reflexivity|]. split; [reflexivity|]. split; [assumption|]. split; [apply (oobV_votes f X6 6 K1)|]. apply xneq_spec in K2. exact K2.
Qed.

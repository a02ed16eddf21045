(** Runs behind PropsCompare.v. *)
From Coq Require Import List Arith Bool ZArith QArith Qcanon Lia.
From Verif Require Import Base Num Rng Histogram Utils Criteria Solvers Tree Forest Wrappers Compare Samples Spec SolverSpec TreeSpec ForestSpec WrapSpec CompareSpec ListFacts NumFacts ForestRepro TreeFacts WrapFacts WrapLife CompareThms TreeWitness TrustWitness ForestWitness.
Import ListNotations.
Local Open Scope nat_scope.

(** Three trees of depth two; the test set is a copy of the training set. *)
Definition twice (l : list Qc) : heap := [{| la_int := false; la_vals := l |}; {| la_int := false; la_vals := l |}].
Definition task_of (w : wrapper) (opts : kwargs) : task :=
  {| tk_w := w; tk_opts := [(Kn_estimators, VInt 3); (Kmax_depth, VInt 2)] ++ opts; tk_X := X6; tk_y := 0; tk_testX := X6; tk_testy := 1; tk_predict := true; tk_theirs := true |}.
Definition task_reg := task_of HistogramRandomForestRegressor [].
Definition task_cl : task :=
  {| tk_w := HistogramRandomForestClassifier; tk_opts := [(Kn_estimators, VInt 3); (Kmax_depth, VInt 1)]; tk_X := X6; tk_y := 0; tk_testX := X6; tk_testy := 1; tk_predict := true; tk_theirs := true |}.
Definition task_gb := task_of GBHistogramRandomForestRegressor [(Kboosting_lr, VNum (frac 1 10))].
Definition Yc : list Qc := [z 0; z 1; z 0; z 1; z 1; z 0].

Definition fin_lt (a b : xn) : bool := match a, b with Fin x, Fin y => qlt x y | _, _ => false end.
Lemma reg_round : ~ patched (tk_w task_reg) /\ ~ boosts (tk_w task_reg) /\ seedless (tk_w task_reg) /\ tk_y task_reg < length (twice T6) /\ tk_testy task_reg < length (twice T6) /\
  exists a b h e, round Msqrt P1 task_reg 1 (twice T6) env0 = Ok (a, Some b, h, e) /\ length (f_trees (en_forest a)) = 3 /\ length (f_trees (en_forest b)) = 3 /\ exists x y, en_train a = Fin x /\ en_train b = Fin y /\ (x < y)%Qc.
Proof.
  split; [intros [Q|[Q|[Q|Q]]]; discriminate Q|]. split; [cbn; intros Q; repeat (destruct Q as [Q|Q]; [discriminate Q|]); exact Q|]. split; [right; left; reflexivity|]. split; [cbn; lia|]. split; [cbn; lia|].
  assert (K : check (round Msqrt P1 task_reg 1 (twice T6) env0) (fun r => let '(a, b, h, e) := r in match b with Some b => (length (f_trees (en_forest a)) =? 3) && (length (f_trees (en_forest b)) =? 3) && fin_lt (en_train a) (en_train b) | None => false end) = true) by (vm_compute; reflexivity).
  take K. destruct x as [[[a [b|]] h] e]; [|discriminate K]. exists a, b, h, e. split; [assumption|]. apply andb_prop in K. destruct K as [K K3]. apply andb_prop in K. destruct K as [K1 K2]. split; [now apply Nat.eqb_eq|]. split; [now apply Nat.eqb_eq|].
  unfold fin_lt in K3. destruct (en_train a) as [x| | |]; try discriminate K3. destruct (en_train b) as [y| | |]; try discriminate K3. exists x, y. split; auto. split; auto. now apply qlt_spec.
Qed.

(** The forest's answer on a row. *)
Definition class_at (c : fcfg) (f : forest) (x : list Qc) : option Qc := match forest_predict c f x with Ok (FClass l _, _) => Some l | _ => None end.
Lemma class_at_some c f x l : class_at c f x = Some l -> exists ps g, forest_predict c f x = Ok (FClass l ps, g).
Proof. unfold class_at. destruct (forest_predict c f x) as [[[l' ps| | |] g]|]; try discriminate. intros Q. injection Q as ->. eauto. Qed.
Lemma class_round : exists P M seed h e a b h' e' c f h1 e1 x l l' ps ps' g g', m_sqrt M 0%Qc = 0%Qc /\
  round M P task_cl seed h e = Ok (a, Some b, h', e') /\ fitted_alone M P task_cl EXACT seed h e c f h1 e1 /\ c = en_cfg b /\
  forest_predict (en_cfg b) (en_forest b) x = Ok (FClass l ps, g) /\ forest_predict c f x = Ok (FClass l' ps', g') /\ l <> l'.
Proof.
  exists P1, Msqrt, 1, (twice Yc), env0.
  assert (K : check (round Msqrt P1 task_cl 1 (twice Yc) env0) (fun r => check (construct P1 (tk_w task_cl) (call_args task_cl EXACT 1) (twice Yc) env0) (fun q => check (forest_fit Msqrt P1 (wo_cfg (fst (fst q))) (wo_forest (fst (fst q))) (None, None) (snd (fst q)) (snd q)) (fun s =>
     match snd (fst (fst r)) with Some b => existsb (fun x => match class_at (en_cfg b) (en_forest b) x, class_at (en_cfg b) (fst (fst s)) x with Some l, Some l' => negb (qeq l l') | _, _ => false end) X6 | None => false end))) = true) by (vm_compute; reflexivity).
  take K. take K. take K. destruct x as [[[a [b|]] h] e]; [|discriminate K]. destruct x0 as [[o h0] e0]. destruct x1 as [[f h1] e1]. cbn [fst snd] in *.
  assert (CB : wo_cfg o = en_cfg b).
  { destruct (round_apart _ _ _ _ _ _ _ _ _ _ H) as (o1 & o2 & h3 & h4 & h5 & f1 & e3 & [A1 A2 A3 A4 A5]). destruct A5 as (_ & f2 & _ & J2). destruct (judge_same _ _ _ _ _ J2) as [-> _].
    assert (NP : ~ patched (tk_w task_cl)) by (intros [Q|[Q|[Q|Q]]]; discriminate Q). destruct (plain_shape _ _ _ _ _ _ _ _ A1 NP) as (-> & _).
    destruct (construct_env _ _ _ _ _ _ _ _ H0) as [_ N]. rewrite N in A2. injection A2 as -> _ _. reflexivity. }
  apply existsb_exists in K. destruct K as (x & _ & K). destruct (class_at (en_cfg b) (en_forest b) x) as [l|] eqn:L1; [|discriminate K]. destruct (class_at (en_cfg b) f x) as [l'|] eqn:L2; [|discriminate K].
  apply class_at_some in L1. destruct L1 as (ps & g & L1). apply class_at_some in L2. destruct L2 as (ps' & g' & L2).
  exists a, b, h, e, (en_cfg b), f, h1, e1, x, l, l', ps, ps', g, g'. split; [apply Qc_is_canon; vm_compute; reflexivity|]. split; [assumption|]. split; [exists o, h0, e0; rewrite <- CB; auto|]. split; [reflexivity|]. split; [assumption|]. split; [assumption|].
  intros ->. rewrite (proj2 (qeq_spec l' l') eq_refl) in K. discriminate K.
Qed.

(** Boosted models on the same data: the second one learns nothing but residuals. *)
Lemma gb_round : exists P M seed h e a b h' e', m_sqrt M 0%Qc = 0%Qc /\ tk_X task_gb = tk_testX task_gb /\ nth_error h (tk_y task_gb) = nth_error h (tk_testy task_gb) /\
  nth_error h (tk_y task_gb) = Some {| la_int := false; la_vals := T6 |} /\
  round M P task_gb seed h e = Ok (a, Some b, h', e') /\ length (f_trees (en_forest a)) = 3 /\ length (f_trees (en_forest b)) = 3 /\
  (exists x y, en_test a = Some (Fin x) /\ en_train a = Fin y /\ (z 24 * x < y)%Qc) /\
  exists c f h1 e1 g x y, fitted_alone M P task_gb EXACT seed h e c f h1 e1 /\ judge task_gb c f h = Ok g /\ en_test g = Some (Fin x) /\ en_test b = Some (Fin y) /\ (z 24 * x < y)%Qc.
Proof.
  exists P1, Msqrt, 1, (twice T6), env0.
  assert (K : check (round Msqrt P1 task_gb 1 (twice T6) env0) (fun r => check (construct P1 (tk_w task_gb) (call_args task_gb EXACT 1) (twice T6) env0) (fun q => check (forest_fit Msqrt P1 (wo_cfg (fst (fst q))) (wo_forest (fst (fst q))) (None, None) (snd (fst q)) (snd q)) (fun s =>
     check (judge task_gb (wo_cfg (fst (fst q))) (fst (fst s)) (twice T6)) (fun g => let '(a, b, h, e) := r in
     match b with Some b => (length (f_trees (en_forest a)) =? 3) && (length (f_trees (en_forest b)) =? 3) &&
       match en_test a, en_train a, en_test g, en_test b with Some (Fin x), Fin y, Some (Fin u), Some (Fin v) => qlt (z 24 * x)%Qc y && qlt (z 24 * u)%Qc v | _, _, _, _ => false end | None => false end)))) = true) by (vm_compute; reflexivity).
  take K. take K. take K. take K. destruct x as [[[a [b|]] h] e]; [|discriminate K]. destruct x0 as [[o h0] e0]. destruct x1 as [[f h1] e1]. cbn [fst snd] in *. rename x2 into g.
  apply andb_prop in K. destruct K as [K K3]. apply andb_prop in K. destruct K as [K1 K2].
  destruct (en_test a) as [[x| | |]|] eqn:EA; try discriminate K3. destruct (en_train a) as [y| | |] eqn:EB; try discriminate K3. destruct (en_test g) as [[u| | |]|] eqn:EC; try discriminate K3. destruct (en_test b) as [[v| | |]|] eqn:ED; try discriminate K3.
  apply andb_prop in K3. destruct K3 as [K3 K4]. apply qlt_spec in K3. apply qlt_spec in K4. exists a, b, h, e. split; [apply Qc_is_canon; vm_compute; reflexivity|]. split; [reflexivity|]. split; [reflexivity|]. split; [reflexivity|]. split; [assumption|]. split; [now apply Nat.eqb_eq|]. split; [now apply Nat.eqb_eq|].
  split; [eauto|]. exists (wo_cfg o), f, h1, e1, g, u, v. split; [exists o, h0, e0; auto|]. auto.
Qed.

(** Equal averages on one seed; with five seeds there is a spread. *)
Lemma verdicts : exists rp h e rp2 h2 e2, m_sqrt Msqrt 0%Qc = 0%Qc /\ compare Msqrt P1 task_cl 1 (twice Y6) env0 = Ok (rp, h, e) /\ (exists o t, sd_test (rp_ours rp) = Some o /\ option_map sd_test (rp_theirs rp) = Some (Some t) /\ st_avg o = Fin 1%Qc /\ st_avg t = Fin 1%Qc) /\
  rp_overlap rp = Some false /\ compare Msqrt P1 task_cl 5 (twice Yc) env0 = Ok (rp2, h2, e2) /\ rp_overlap rp2 = Some true.
Proof.
  assert (K : check (compare Msqrt P1 task_cl 1 (twice Y6) env0) (fun r => check (compare Msqrt P1 task_cl 5 (twice Yc) env0) (fun q =>
     match sd_test (rp_ours (fst (fst r))), option_map sd_test (rp_theirs (fst (fst r))), rp_overlap (fst (fst r)), rp_overlap (fst (fst q)) with
     | Some o, Some (Some t), Some false, Some true => match st_avg o, st_avg t with Fin x, Fin y => qeq x 1 && qeq y 1 | _, _ => false end | _, _, _, _ => false end)) = true) by (vm_compute; reflexivity).
  take K. take K. destruct x as [[rp h] e], x0 as [[rp2 h2] e2]. cbn [fst snd] in *. exists rp, h, e, rp2, h2, e2. split; [apply Qc_is_canon; vm_compute; reflexivity|]. split; [assumption|].
  destruct (sd_test (rp_ours rp)) as [o|]; [|discriminate K]. destruct (option_map sd_test (rp_theirs rp)) as [[t|]|]; try discriminate K. destruct (rp_overlap rp) as [[|]|]; try discriminate K. destruct (rp_overlap rp2) as [[|]|]; try discriminate K.
  destruct (st_avg o) as [x| | |] eqn:A; try discriminate K. destruct (st_avg t) as [y| | |] eqn:B; try discriminate K. apply andb_prop in K. destruct K as [K1 K2]. apply qeq_spec in K1. apply qeq_spec in K2. subst x y.
  split; [exists o, t; auto|]. auto.
Qed.

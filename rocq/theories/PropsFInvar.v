(** What a forest does not depend on. The vocabulary ([rescaling], [frelabelling],
    [same_forest], [move_heap], ...) is in InvarSpec.v and FInvarSpec.v. *)
From Coq Require Import List Arith Bool ZArith QArith Qcanon Lia Permutation.
From Verif Require Import Base Num Rng Histogram Utils Criteria Solvers Tree Forest Spec SolverSpec TreeSpec InvarSpec ForestSpec FInvarSpec Samples NumFacts ListFacts TreeWitness ForestWitness InvarWitness FInvarWitness ForestMove PropsInvariance.
Import ListNotations.
Local Open Scope nat_scope.

(** ** C142: the units of the features *)
Theorem C142_forest_feature_units : forall M P c u d labels classes budget h e f e0 arg data W f1 h1 e1,
  forest_new P c d labels classes budget h e = Ok (f, e0) -> forest_trainable c f arg h data W -> forest_fixed_grid c -> (fc_class c = true -> good_classes (f_classes f)) ->
  rescaling (fc_bin c) W u -> forest_fit M P c f arg h e0 = Ok (f1, h1, e1) ->
  forall e', exists f' e0' f1' e1', forest_new P c (option_map (map (move_row u)) d) labels classes budget h e' = Ok (f', e0') /\
    forest_fit M P c f' (move_arg u arg) h e0' = Ok (f1', h1, e1') /\ same_forest u (fun y => y) 1 f1 f1' /\
    (forall x, answer (forest_predict c f1' (move_row u x)) = answer (forest_predict c f1 x)) /\
    (forall arr f2, calculate_mdi f1 = Ok (arr, f2) -> exists f2', calculate_mdi f1' = Ok (arr, f2')) /\
    (forall dt sc f2, get_oob_score c f1 h1 dt = Ok (sc, f2) -> exists f2', get_oob_score c f1' h1 (option_map (map (move_row u)) dt) = Ok (sc, f2')).
Proof. exact rescaled_forest. Qed.
Print Assumptions C142_forest_feature_units.

(** ** C143: the units or the names of the labels *)
Theorem C143_forest_label_units : forall M P c u g s d labels classes budget h e f e0 arg data W f1 h1 e1,
  forest_new P c d labels classes budget h e = Ok (f, e0) -> forest_trainable c f arg h data W -> forest_fixed_grid c -> (fc_class c = true -> good_classes (f_classes f)) ->
  (fc_class c = true -> classes = None -> increasing g) -> rescaling (fc_bin c) W u -> frelabelling c (f_classes f) h g s ->
  forest_fit M P c f arg h e0 = Ok (f1, h1, e1) ->
  forall e', exists f' e0' f1' e1', forest_new P (move_fcfg s c) (option_map (map (move_row u)) d) labels (option_map (rename g) classes) budget (move_heap g h) e' = Ok (f', e0') /\
    forest_fit M P (move_fcfg s c) f' (move_arg u arg) (move_heap g h) e0' = Ok (f1', move_heap g h1, e1') /\ same_forest u g s f1 f1' /\
    (forall x, answer (forest_predict (move_fcfg s c) f1' (move_row u x)) = move_fanswer g (answer (forest_predict c f1 x))) /\
    (forall arr f2, calculate_mdi f1 = Ok (arr, f2) -> exists f2', calculate_mdi f1' = Ok (map (move_x s) arr, f2')) /\
    ((if fc_class c then forall y, g y = y else exists k, s = (k * k)%Qc /\ forall y, g y = (k * y)%Qc) -> forall dt sc f2, get_oob_score c f1 h1 dt = Ok (sc, f2) ->
      exists f2', get_oob_score (move_fcfg s c) f1' (move_heap g h1) (option_map (map (move_row u)) dt) = Ok (move_x s sc, f2')).
Proof. exact relabelled_forest. Qed.
Print Assumptions C143_forest_label_units.
(** The out-of-bag score of a classifier depends on the names of the classes. *)
Theorem C143_oob_names_refuted : exists P M c X g h e f e0 f1 h1 e1 f' e0' f1' h1' e1' sc f2 sc' f2',
  forest_trainable c f (None, None) h X 2 /\ forest_fixed_grid c /\ fc_class c = true /\ good_classes (f_classes f) /\ increasing g /\ frelabelling c (f_classes f) h g 1 /\
  forest_new P c (Some X) (Some 0) None None h e = Ok (f, e0) /\ forest_fit M P c f (None, None) h e0 = Ok (f1, h1, e1) /\
  forest_new P c (Some X) (Some 0) None None (move_heap g h) e = Ok (f', e0') /\ forest_fit M P c f' (None, None) (move_heap g h) e0' = Ok (f1', h1', e1') /\
  get_oob_score c f1 h1 None = Ok (sc, f2) /\ get_oob_score c f1' h1' None = Ok (sc', f2') /\ sc' <> sc.
Proof. exact oob_names. Qed.
Print Assumptions C143_oob_names_refuted.
(** The out-of-bag score of a regressor changes when a constant is added to all targets. *)
Theorem C143_oob_offset_refuted : exists P M c X g h e f e0 f1 h1 e1 f' e0' f1' h1' e1' sc f2 sc' f2',
  forest_trainable c f (None, None) h X 2 /\ forest_fixed_grid c /\ fc_class c = false /\ (forall y, g y = (y + z 3)%Qc) /\ frelabelling c (f_classes f) h g 1 /\
  forest_new P c (Some X) (Some 0) None None h e = Ok (f, e0) /\ forest_fit M P c f (None, None) h e0 = Ok (f1, h1, e1) /\
  forest_new P c (Some X) (Some 0) None None (move_heap g h) e = Ok (f', e0') /\ forest_fit M P c f' (None, None) (move_heap g h) e0' = Ok (f1', h1', e1') /\
  get_oob_score c f1 h1 None = Ok (sc, f2) /\ get_oob_score c f1' h1' None = Ok (sc', f2') /\ sc' <> sc.
Proof. exact oob_offset. Qed.
Print Assumptions C143_oob_offset_refuted.
(** Boosting on an integer label array: doubling the targets does not double the predictions. *)
Theorem C143_boosted_integers_refuted : exists P M c X h e f e0 f1 h1 e1 f' e0' f1' h1' e1' x,
  forest_trainable c f (None, None) h X 2 /\ forest_fixed_grid c /\ fc_class c = false /\ fc_boosting c = true /\ (forall la, In la h -> la_int la = true) /\
  forest_new P c (Some X) (Some 0) None None h e = Ok (f, e0) /\ forest_fit M P c f (None, None) h e0 = Ok (f1, h1, e1) /\
  forest_new P (move_fcfg (z 4) c) (Some X) (Some 0) None None (move_heap dbl h) e = Ok (f', e0') /\ forest_fit M P (move_fcfg (z 4) c) f' (None, None) (move_heap dbl h) e0' = Ok (f1', h1', e1') /\
  In x X /\ answer (forest_predict (move_fcfg (z 4) c) f1' x) <> move_fanswer dbl (answer (forest_predict c f1 x)).
Proof. exact boosted_ints. Qed.
Print Assumptions C143_boosted_integers_refuted.

(** ** The hypotheses are met *)
(** A bootstrapped classifier with classes 0, 1 renamed 3, 4; a bootstrapped regressor whose
    targets y become 5 - 2 y; a boosted regressor whose targets are doubled; feature 0 bent and
    feature 1 in other units. *)
Example C142_C143_hypotheses :
  (forall c Y, c = fc_cl /\ Y = Y6 \/ (c = fc_re \/ c = fc_bo) /\ Y = T6 ->
     exists f e0 f1 h1 e1, forest_new P1 c (Some X6) (Some 0) None None (heap_of Y) env0 = Ok (f, e0) /\ forest_trainable c f (None, None) (heap_of Y) X6 2 /\ forest_fixed_grid c /\
       (fc_class c = true -> good_classes (f_classes f)) /\ rescaling (fc_bin c) 2 mixed /\ forest_fit M0 P1 c f (None, None) (heap_of Y) e0 = Ok (f1, h1, e1) /\ length (f_trees f1) = 3) /\
  increasing shift3 /\ frelabelling fc_cl [(z 0, 0); (z 1, 1)] (heap_of Y6) shift3 1 /\
  frelabelling fc_re [] (heap_of T6) (fun y => (z (-2) * y + z 5)%Qc) (z 4) /\ frelabelling fc_bo [] (heap_of T6) dbl (z 4).
Proof.
  destruct C140_hypotheses as [R _]. split; [|split; [|split; [|split]]].
  - intros c Y C. assert (K : check (frunC P1 c (heap_of Y)) (fun r => length (f_trees (fst (fst (snd r)))) =? 3) = true) by (destruct C as [[-> ->]|[[->| ->] ->]]; vm_compute; reflexivity).
    take K. destruct x as [[f e0] [[f1 h1] e1]]. cbn [fst snd] in *. destruct (frunC_ok _ _ _ _ _ _ _ _ H) as [N1 R1]. destruct (fresh_trainable P1 c false Y f e0 C N1) as [TR FC].
    exists f, e0, f1, h1, e1. split; [exact N1|]. split; [exact TR|]. split; [destruct C as [[-> _]|[[->| ->] _]]; (split; [reflexivity|now left])|]. split; [intros IC; rewrite (FC IC); apply classes_ex|].
    split; [destruct C as [[-> _]|[[->| ->] _]]; exact R|]. split; [exact R1|now apply Nat.eqb_eq].
  - intros x y L. unfold shift3. qlra.
  - split; [reflexivity|]. split; [|intros x y _ _ Q; unfold shift3 in Q; qlra]. intros la y [<-|[]] I. cbn [la_vals Y6] in I. repeat (destruct I as [<-|I]; [apply Qc_is_canon; vm_compute; reflexivity|]). destruct I.
  - exists (z (-2)), (z 5). split; [discriminate|]. split; [apply Qc_is_canon; vm_compute; reflexivity|]. split; [reflexivity|discriminate].
  - exists (z 2), 0%Qc. split; [discriminate|]. split; [apply Qc_is_canon; vm_compute; reflexivity|]. split; [intros y; unfold dbl; ring|]. intros _. split; [reflexivity|]. right. intros la [<-|[]]. reflexivity.
Qed.

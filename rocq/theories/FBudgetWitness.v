(** Runs behind the examples of PropsFBudget.v. *)
From Coq Require Import List Arith Bool ZArith QArith Qcanon Lia.
From Verif Require Import Base Num Rng Histogram Utils Criteria Solvers Tree Forest Spec SolverSpec TreeSpec TrainSpec ForestSpec NestSpec GrowSpec BudgetSpec FBudgetSpec Samples ListFacts TrustWitness TreeWitness ForestWitness NestWitness BudgetWitness FBudgetThms.
Import ListNotations.
Local Open Scope nat_scope.

(** Three bootstrapped trees, or three boosted trees, on eight rows. *)
Definition frun8 (c : fcfg) (y : list Qc) (b : option Z) : res (forest * heap * env) := frun P1 c (line 8) (heap_of y) None b.
Definition members (c : fcfg) (b : option Z) : option (list (nat * nat)) :=
  match frun8 c Y8 b with Ok (f, _, _) => Some (map (fun p => (length (t_leaves (snd p)), t_queries (snd p))) (f_trees f)) | Err _ => None end.
Definition flat8 : list Qc := repeat (z 5) 8.
Lemma line8_rows c : fc_alpha_N c = 1%Qc -> fc_alpha_F c = 1%Qc -> some_rows c (length (line 8)).
Proof. intros A B. split; [cbn; lia|]. rewrite A, B. vm_compute. discriminate. Qed.

(** A new forest with one budget is the new forest with another, limited. *)
Lemma new_limited P c X r cl b h e : forest_new P c X r cl b h e = match forest_new P c X r cl None h e with Ok (f, e') => Ok (limited f b, e') | Err k => Err k end.
Proof.
  unfold forest_new. repeat match goal with |- rbind ?x _ = match rbind ?x _ with _ => _ end => destruct x; cbn [rbind]; auto end.
Qed.
(** Equal labels: every tree costs nothing. *)
Definition new8 : res (forest * env) := forest_new P1 fc_re (Some (line 8)) (Some 0) None None (heap_of flat8) env0.
Lemma no_budget_enough : exists M P c X h f0 e0, fc_solver c = EXACT /\ some_rows c (length X) /\ forest_new P c (Some X) (Some 0) None None h env0 = Ok (f0, e0) /\
  (exists f h1 e1, forest_fit M P c (limited f0 None) (None, None) h e0 = Ok (f, h1, e1) /\ length (f_trees f) = 3) /\
  (exists f h1 e1, forest_fit M P c (limited f0 (Some 1000000000%Z)) (None, None) h e0 = Ok (f, h1, e1)) /\
  (forall b f h1 e1, forest_fit M P c (limited f0 (Some b)) (None, None) h e0 = Ok (f, h1, e1) -> f_trees f = []).
Proof.
  assert (K : check new8 (fun fe => check (forest_fit M0 P1 fc_re (limited (fst fe) None) (None, None) (heap_of flat8) (snd fe)) (fun r =>
     check (forest_fit M0 P1 fc_re (limited (fst fe) (Some 1000000000%Z)) (None, None) (heap_of flat8) (snd fe)) (fun r' =>
       match f_trees (fst (fst r)) with [p; _; _] => t_queries (snd p) =? 0 | _ => false end))) = true) by (vm_compute; reflexivity).
  apply via in K. destruct K as [[f0 e0] [E K]]. cbn [fst snd] in K. apply via in K. destruct K as [[[f h1] e1] [E1 K]]. apply via in K. destruct K as [[[f' h1'] e1'] [E2 K]]. cbn [fst snd] in K.
  exists M0, P1, fc_re, (line 8), (heap_of flat8), f0, e0. split; [reflexivity|]. split; [apply line8_rows; reflexivity|]. split; [exact E|].
  assert (FD : f_data f0 = Some (line 8)).
  { unfold new8, forest_new in E. repeat (apply rbind_ok in E; destruct E as [? [_ E]]). apply ok_pair_inv in E. destruct E as [<- _]. reflexivity. }
  destruct (f_trees f) as [|p [|p2 [|p3 [|p4 l]]]] eqn:T; try discriminate K. apply Nat.eqb_eq in K.
  split; [exists f, h1, e1; split; [exact E1|now rewrite T]|]. split; [eauto|].
  intros b g h2 e2 H. assert (L : length (f_trees g) <= 0); [|destruct (f_trees g); auto; cbn in L; lia].
  eapply (free_tree M0 P1 fc_re f0 (None, None) _ _ b g h2 e2 f h1 e1 0 p); [reflexivity| |exact H|exact E1|now rewrite T|exact K].
  intros data D. unfold fit_data in D. cbn [fst] in D. rewrite FD in D. injection D as <-. apply line8_rows; reflexivity.
Qed.

(** Two other ways to search and compute, for the examples of PropsGen.v. *)
From Coq Require Import List Arith Bool ZArith QArith Qcanon Lia.
From Verif Require Import Base Num Rng Histogram Utils Criteria Solvers Tree TreeGen Samples Spec SolverSpec TreeSpec TreeGenSpec NumFacts ListFacts TreeWitness.
Import ListNotations.
Local Open Scope nat_scope.

(** Every product and quotient rounded down to sixteenths. *)
Definition coarse (q : Qc) : Qc := (Zq (qfloor (q * z 16)) / z 16)%Qc.
Definition xcoarse (x : xn) : xn := match x with Fin q => Fin (coarse q) | _ => x end.
Definition coarse_ops (c : tcfg) : ops :=
  {| o_solve := fun nd b e => do r <- node_solve M0 c nd b e;
       match r with (Found f v red q, bins, e') => Ok (Found f v (xcoarse red) q, bins, e') | _ => Ok r end;
     o_weigh := fun red p => xcoarse (xmul red (Fin p));
     o_scale := fun red n N => xcoarse (xdiv (xmul red (Fin (Nq n))) (Fin (Nq N)));
     o_lt := xlt;
     o_share := fun p k n => coarse (p * (Nq k / Nq n))%Qc |}.

(** A search that takes the first value below another one, whatever the labels. *)
Fixpoint first_varied (D : list (list Qc)) (fs : list nat) : option (nat * Qc) :=
  match fs with
  | [] => None
  | f :: r => let cl := map (fun row => nth f row 0%Qc) D in
              match find (fun x => existsb (qlt x) cl) cl with Some v => Some (f, v) | None => first_varied D r end
  end.
Definition blind_ops : ops :=
  {| o_solve := fun nd b e => do D <- opt_res (nd_data nd) AttributeError;
       match first_varied D (seq 0 (length (nd_feats nd))) with
       | Some (f, v) => Ok (Found f v (Fin (z (-1))) (length D), 0, e)
       | None => Ok (NoSplit (length D), 0, e)
       end;
     o_weigh := fun red _ => red; o_scale := fun red _ _ => red; o_lt := xlt; o_share := fun p _ _ => p |}.

Definition gen_run (O : ops) (c : tcfg) (a : targs) : res tree := do te <- tree_new P0 c a env0; do r <- gen_tree_fit O c (fst te) (None, None) (snd te); Ok (fst r).
Lemma gen_run_built O c a t : gen_run O c a = Ok t -> gen_built P0 O c a env0 t.
Proof.
  unfold gen_run. intros H. apply rbind_ok in H. destruct H as [[t0 e0] [E1 H]]. apply rbind_ok in H. destruct H as [[t1 e1] [E2 H]].
  injection H as <-. exists t0, e0, e1. auto.
Qed.

Lemma first_varied_spec D fs f v : first_varied D fs = Some (f, v) ->
  In f fs /\ (exists r, In r D /\ nth f r 0%Qc = v) /\ (exists r, In r D /\ (v < nth f r 0)%Qc).
Proof.
  induction fs as [|g fs IH]; cbn [first_varied]; [discriminate|].
  destruct (find _ _) as [w|] eqn:E.
  - intros H. injection H as <- <-. apply find_some in E. destruct E as [I X]. apply existsb_exists in X. destruct X as [y [J Q]]. apply qlt_spec in Q.
    apply in_map_iff in I, J. destruct I as [r [<- I]], J as [r' [<- J]]. split; [now left|]. split; [exists r; auto|exists r'; auto].
  - intros H. destruct (IH H) as [A B]. split; [now right|exact B].
Qed.

Lemma blind_ends : search_ends blind_ops.
Proof. intros nd b e. cbn. destruct (nd_data nd); cbn; [|discriminate]. destruct (first_varied _ _) as [[f v]|]; discriminate. Qed.
Lemma blind_answers a : search_answers blind_ops a.
Proof. intros nd b e [E _] _. cbn. rewrite E. cbn. destruct (first_varied _ _) as [[f v]|]; eauto. Qed.
Lemma blind_separates a : search_separates blind_ops a.
Proof.
  intros nd b e f v r q bins e' [E _] _. cbn. rewrite E. cbn.
  destruct (first_varied _ _) as [[g w]|] eqn:F; [|discriminate]. intros H. injection H as <- <- _ _ _ _.
  destruct (first_varied_spec _ _ _ _ F) as [I [[r1 [I1 V1]] [r2 [I2 V2]]]]. apply in_seq in I. cbn in I. destruct I as [_ I].
  destruct (nth_error (nd_feats nd) g) as [s|] eqn:N; [|apply nth_error_None in N; lia]. exists s. split; [reflexivity|].
  assert (G : forall i, nth g (map (cell (ta_data a) i) (nd_feats nd)) 0%Qc = cell (ta_data a) i s).
  { intros i. apply nth_error_nth. rewrite nth_error_map, N. reflexivity. }
  apply in_map_iff in I1, I2. destruct I1 as [i [<- I1]], I2 as [j [<- I2]]. rewrite G in V1, V2. split; [exists i|exists j]; split; auto.
  rewrite V1. apply Qcle_refl.
Qed.
Lemma lt_negative O c : o_lt O = xlt -> (tc_min_imp c <= 0)%Qc -> decrease_negative O c.
Proof.
  intros E H x. rewrite E. destruct x as [q| | |]; cbn; auto. intros X. apply qlt_spec in X. apply qlt_spec. qlra.
Qed.

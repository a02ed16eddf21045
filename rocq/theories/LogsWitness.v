(** Concrete cases for the claims about load_housing and the log analysis. *)
From Coq Require Import List Arith Bool ZArith QArith Qcanon Lia.
From Verif Require Import Base Num Rng Spec Heart HeartWitness Logs LogsSpec LogsThms.
Import ListNotations.
Local Open Scope nat_scope.

Lemma housing10 : length rows10 = length marks10 /\ exists trX trY teX teY, load_housing 7 [5; 3; 8; 1] rows10 marks10 = Ok (trX, trY, teX, teY) /\ length trX = 7 /\ length teX = 3 /\ map (map this) trX <> map (map this) (firstn 7 rows10).
Proof.
  split; [reflexivity|].
  assert (V : match load_housing 7 [5; 3; 8; 1] rows10 marks10 with Ok (a, b, c, d) => (length a, length c, match a with r :: _ => map this r | [] => [] end) | Err _ => (0, 0, []) end = (7, 3, [5; 25]%Q)) by (vm_compute; reflexivity).
  destruct (load_housing _ _ _ _) as [[[[a b] c] d]|]; [|discriminate V]. exists a, b, c, d. injection V as V1 V2 V3. split; [reflexivity|]. split; [auto|]. split; [auto|].
  intros E. destruct a as [|r a]; [discriminate V1|]. cbn [map] in E. rewrite V3 in E. vm_compute in E. discriminate E.
Qed.

Definition log2 : list logline := [LOther; LCount 4; LOther; LCount 6; LResults 100; LCount 5; LResults 200; LOther].
Definition blocks2 : list (list Z * Z) := [([4; 6]%Z, 100%Z); ([5]%Z, 200%Z)].
Definition zl_eqb (a b : list Z) : bool := (length a =? length b) && forallb (fun p => Z.eqb (fst p) (snd p)) (combine a b).
Definition check3 (r : res (list (list Z) * list Z * list xn)) (t : list (list Z)) (s : list Z) (m : list Q) : bool :=
  match r with
  | Ok (t', s', m') => zl_eqb (concat t') (concat t) && (length t' =? length t) && zl_eqb s' s && (length m' =? length m) && forallb (fun p => match fst p with Fin q => Qeq_bool q (snd p) | _ => false end) (combine m' m)
  | Err _ => false
  end.
Lemma log2_case : written log2 blocks2 /\ length blocks2 <= 3 /\ (forall b, In b blocks2 -> length (fst b) <= 2) /\
  check3 (analyze_log 3 2 log2) [[4; 6]; [5; 0]; [0; 0]]%Z [100; 200]%Z [5; 5 # 2; 0]%Q = true /\
  analyze_log 3 1 log2 = Err IndexError.
Proof.
  split; [reflexivity|]. split; [cbn; lia|]. split; [|split; vm_compute; reflexivity].
  intros b [<-|[<-|[]]]; cbn; lia.
Qed.
Lemma short_log : exists rows cols log blocks table means b v, written log blocks /\ length blocks <= rows /\ (forall b, In b blocks -> length (fst b) <= cols) /\
  analyze_log rows cols log = Ok (table, map snd blocks, means) /\ nth_error blocks 0 = Some b /\ nth_error means 0 = Some (Fin v) /\ v <> average (length (fst b)) (fst b).
Proof.
  set (bs := [([5]%Z, 200%Z)]). assert (W : written [LCount 5; LResults 200] bs) by reflexivity. assert (L : length bs <= 3) by (cbn; lia).
  assert (C : forall b, In b bs -> length (fst b) <= 2) by (intros b [<-|[]]; cbn; lia).
  destruct (analyze_ok 3 2 _ bs ltac:(lia) W L C) as [t [m [E [_ [_ N]]]]].
  exists 3, 2, [LCount 5; LResults 200], bs, t, m, ([5]%Z, 200%Z), (average 2 [5]%Z). split; [exact W|]. split; [exact L|]. split; [exact C|]. split; [exact E|]. split; [reflexivity|].
  split; [exact (N 0 _ eq_refl)|]. cbn [fst length]. intros Q. apply (f_equal this) in Q. vm_compute in Q. discriminate Q.
Qed.

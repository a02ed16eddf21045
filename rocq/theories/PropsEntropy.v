(** The entropy (C67, C131).  These theorems speak about the real logarithm and therefore rest
    on the axioms of Coq's real numbers, listed under each. *)
From Coq Require Import List Arith Bool ZArith QArith Qcanon Reals Lra Lia.
From Verif Require Import Base Num Rng Histogram Criteria Samples Spec EntSpec NumFacts HistFacts HistAdd CritFacts HistProps HistProps2 ExactTotal EntFacts.
Import ListNotations.
Local Open Scope R_scope.

(** ** C67: the entropy of counts *)
Theorem C67_range : forall counts, (0 < list_sum counts)%nat ->
  0 <= entropy_of counts <= ln (INR (length counts)) /\
  (entropy_of counts = 0 <-> In (list_sum counts) counts) /\
  (entropy_of counts = ln (INR (length counts)) <-> forall c d, In c counts -> In d counts -> c = d).
Proof. exact entropy_range. Qed.
Print Assumptions C67_range.
Theorem C67_splitting : forall a b, length a = length b -> (0 < list_sum a)%nat -> (0 < list_sum b)%nat ->
  let n := (list_sum a + list_sum b)%nat in
  share (list_sum a) n * entropy_of a + share (list_sum b) n * entropy_of b <= entropy_of (merged a b) /\
  (share (list_sum a) n * entropy_of a + share (list_sum b) n * entropy_of b = entropy_of (merged a b) <->
   forall i x y, nth_error a i = Some x -> nth_error b i = Some y -> (x * list_sum b = y * list_sum a)%nat).
Proof. exact entropy_split. Qed.
Print Assumptions C67_splitting.

(** ** C67: the entropy the code computes, with a logarithm off by at most eps *)
Theorem C67_computed_entropy : forall M counts eps, log_within (m_log M) eps -> (0 < list_sum counts)%nat ->
  let E := real (entropy_value M counts None) in
  Rabs (E - entropy_of counts) <= eps /\ - eps <= E <= ln (INR (length counts)) + eps.
Proof. exact computed_entropy. Qed.
Print Assumptions C67_computed_entropy.
Theorem C67_computed_sign : forall M counts, (forall q, (0 < q)%Qc -> (q <= 1)%Qc -> (m_log M q <= 0)%Qc) -> (0 < list_sum counts)%nat -> (0 <= entropy_value M counts None)%Qc.
Proof. exact computed_sign. Qed.
Print Assumptions C67_computed_sign.
Theorem C67_computed_pure : forall M counts, m_log M 1%Qc = 0%Qc -> (0 < list_sum counts)%nat -> In (list_sum counts) counts -> entropy_value M counts None = 0%Qc.
Proof. exact computed_pure. Qed.
Print Assumptions C67_computed_pure.
(** The change of entropy reported for a split of the rows seen so far. *)
Theorem C67_reported_change : forall f uf fd cl nb mn mx ty t h0 t' edges batches h M bins pop irs vs i b e ir eps,
  new_hist true f uf fd cl nb mn mx ty t = Ok (h0, t') -> good_bins ty nb mn mx uf -> NoDup cl ->
  h_edges h0 = Some edges -> add_all h0 batches = Ok h ->
  let T := rows_of batches in
  get_impurity_reductions M ENTROPY h bins pop = Ok (irs, vs) ->
  nth_error bins i = Some b -> nth_error edges b = Some e -> nth_error irs i = Some ir ->
  log_within (m_log M) eps ->
  Rabs (real ir - entropy_change T f e) <= 2 * eps /\ entropy_change T f e <= 0 /\ real ir <= 2 * eps.
Proof. exact reported_entropy. Qed.
Print Assumptions C67_reported_change.
Example C67_logarithms : forall k, log_within (grid_log k) (/ INR (S k)).
Proof. exact grid_log_within. Qed.
Example C67_counts : (0 < list_sum [2; 0; 3]%nat)%nat /\ (0 < list_sum [4; 1; 0]%nat)%nat /\ ~ In (list_sum [2; 0; 3]%nat) [2; 0; 3]%nat /\ In (list_sum [0; 5]%nat) [0; 5]%nat.
Proof. cbn. repeat split; try lia. Qed.
Example C67_reported_ex : exists h0 t' h, new_hist true 0 None [] [z 0; z 1] 3 (z 1) (z 6) LINEAR [] = Ok (h0, t') /\
  add_all h0 [(X6, [z 0; z 1; z 0; z 1; z 1; z 1])] = Ok h /\
  forall M, exists ir v, get_impurity_reductions M ENTROPY h [1%nat] (Some 10%nat) = Ok ([ir], [v]).
Proof.
  do 3 eexists. split; [reflexivity|]. split; [vm_compute; reflexivity|]. intros M.
  cbv [get_impurity_reductions h_class h_left h_right h_nb]. cbn -[weigh side_size Nq Qcplus]. eauto.
Qed.

(** ** C131: impurities without variance *)
Theorem C131_gini_alone : forall counts pop n,
  (forall g v, get_gini counts pop n = Ok (g, v) -> g = gini_value counts n) /\ (counts <> [] -> exists v, get_gini counts pop n = Ok (gini_value counts n, v)).
Proof. exact value_gini. Qed.
Print Assumptions C131_gini_alone.
Theorem C131_entropy_alone : forall M counts pop n g v, get_entropy M counts pop n = Ok (g, v) -> g = entropy_value M counts n.
Proof. exact value_entropy. Qed.
Print Assumptions C131_entropy_alone.
Theorem C131_gini_of_labels : forall cl ls, NoDup cl -> incl ls cl -> cl <> [] -> gini_value (map (fun c => occurrences c ls) cl) (Some (length ls)) = gini ls.
Proof. exact gini_value_labels. Qed.
Print Assumptions C131_gini_of_labels.
Theorem C131_entropy_of_labels : forall M cl ls, NoDup cl -> incl ls cl -> entropy_value M (map (fun c => occurrences c ls) cl) (Some (length ls)) = entropy (m_log M) ls.
Proof. exact entropy_value_labels. Qed.
Print Assumptions C131_entropy_of_labels.
Example C131_ex : NoDup [z 0; z 1; z 2] /\ incl [z 1; z 1; z 2] [z 0; z 1; z 2] /\ gini_value [0; 2; 1]%nat (Some 3%nat) = frac 4 9.
Proof. split; [repeat constructor; cbn; intuition discriminate|]. split; [intros x; cbn; tauto|]. apply Qc_is_canon. vm_compute. reflexivity. Qed.

(** Theorems about the helper functions (utils.py, criteria.py, boosting.py, solvers.py). *)
From Coq Require Import List Arith Bool ZArith QArith Qcanon Lia Sorted.
From Verif Require Import Base Num Rng Histogram Utils Criteria Solvers Tree Forest Samples Spec TreeSpec TreeWitness UtilsFacts.
Import ListNotations.
Local Open Scope nat_scope.

(** C52 fails for every count vector with three or more classes. *)
Theorem C52_entropy_any_classes_refuted : exists counts pop n, forall M, get_entropy M counts pop n = Err ValueError.
Proof. exact (ex_intro _ [1; 1; 1] (ex_intro _ None (ex_intro _ None (fun M => entropy_many M [1; 1; 1] None None (le_n 3))))). Qed.
Print Assumptions C52_entropy_any_classes_refuted.
Theorem C91_entropy_classes : forall M counts pop n,
  ((exists r, get_entropy M counts pop n = Ok r) <-> length counts <= 2) /\
  (3 <= length counts -> get_entropy M counts pop n = Err ValueError).
Proof. exact (fun M counts pop n => conj (entropy_answers M counts pop n) (entropy_many M counts pop n)). Qed.
Print Assumptions C91_entropy_classes.

(** C53: the argument n has no effect, the limit is always ten. *)
Theorem C53_discrete_limit_refuted : exists data n d v, rectangular 1 data /\ data_to_discrete data n = Ok d /\
  assoc 0 (dd_items d) = Some v /\ n < length (distinct (feature_values 0 data)).
Proof. exact discrete_limit_ignored. Qed.
Print Assumptions C53_discrete_limit_refuted.
Theorem C53_discrete_features_partial : forall W data n, rectangular W data -> data <> [] ->
  exists d, data_to_discrete data n = Ok d /\
  forall f, match assoc f (dd_items d) with
            | Some v => f < W /\ length (distinct (feature_values f data)) <= 10 /\
                        exists s, v = DSet s /\ NoDup s /\ forall x, In x s <-> In x (feature_values f data)
            | None => f < W -> 10 < length (distinct (feature_values f data))
            end.
Proof. exact (fun W data n R N => ex_intro _ _ (conj (data_to_discrete_eq W data n R N) (discrete_spec W data n _ R N (data_to_discrete_eq W data n R N)))). Qed.
Print Assumptions C53_discrete_features_partial.
Example C53_ex : check (data_to_discrete (map (fun i => [z (Z.of_nat i); z (Z.of_nat (i mod 3))]) (seq 0 12)) 5)
  (fun d => match dd_items d with [(1, DSet l)] => length l =? 3 | _ => false end) = true.
Proof. vm_compute. reflexivity. Qed.

Theorem C54_detected_bins_refuted : forall W data n d ic labels mm B np,
  rectangular W data -> data <> [] -> 0 < W -> data_to_discrete data n = Ok d ->
  exists e, make_histograms ic data labels mm (Some d) DISCRETE B np = Err e.
Proof. exact make_discrete_fails. Qed.
Print Assumptions C54_detected_bins_refuted.
(** What works: values given as a list are used as they are. *)
Theorem C92_listed_values_are_the_edges : forall ic data labels mm d B np st,
  make_histograms ic data labels mm (Some d) DISCRETE B np = Ok st ->
  forall i h, nth_error (mh_hists st) i = Some h -> exists l, dd_get d i = Ok (DList l) /\ l <> [] /\ h_edges h = Some l.
Proof. exact make_discrete_edges. Qed.
Print Assumptions C92_listed_values_are_the_edges.
Example C92_ex : check (make_histograms true (ta_data second_only) (ta_labels second_only) None (Some dd2) DISCRETE 10 [])
  (fun st => length (mh_hists st) =? 2) = true.
Proof. vm_compute. reflexivity. Qed.

(** C55: a tree over feature 1 cuts it at 3/2, a value of feature 0. *)
Theorem C55_discrete_values_follow_refuted : exists t, run (tree_cfg true FSNone DISCRETE EXACT 10) second_only = Ok t /\
  split_of t 0 = Some (1, frac 3 2) /\ dd_get dd2 1 = Ok (DList [z 1; z 2]) /\ ~ In (frac 3 2) [z 1; z 2].
Proof. exact wrong_feature_cut. Qed.
Print Assumptions C55_discrete_values_follow_refuted.
(** The dictionary is remapped correctly, but every node keeps the tree's own. *)
Theorem C55_remap_partial : forall feats d, dd_default d = true ->
  exists d', remap_discrete_features feats d = Ok d' /\ forall i f, nth_error feats i = Some f -> dd_get d' i = dd_get d f.
Proof. exact (fun feats d D => match remap_total feats d D with ex_intro _ d' E => ex_intro _ d' (conj E (remap_spec feats d d' E D)) end). Qed.
Print Assumptions C55_remap_partial.
Theorem C55_node_keeps_tree_values_partial : forall c t p idcs depth prop bins e nd e',
  node_new c t p idcs depth prop bins e = Ok (nd, e') -> nd_dd nd = t_dd t.
Proof. exact node_dictionary. Qed.
Print Assumptions C55_node_keeps_tree_values_partial.
Example C55_ex : check (remap_discrete_features [1; 0; 5] dd2) (fun d => match dd_items d with [(0, DList a); (1, DList b); (2, DList [])] => (length a =? 2) && (length b =? 2) | _ => false end) = true.
Proof. vm_compute. reflexivity. Qed.

Theorem C56_choose_features : forall feats fs gen l gen', NoDup feats -> choose_features feats fs gen = Ok (l, gen') ->
  NoDup l /\ incl l feats /\
  match fs with
  | FSNone => l = feats
  | FSSqrt => length feats <= length l * length l /\ forall j, length feats <= j * j -> length l <= j
  | FSInt k => Z.of_nat (length l) = k
  | FSFloat r => rounds_up (r * rat (length feats))%Qc (length l)
  | FSOther => False
  end.
Proof. exact choose_features_spec. Qed.
Print Assumptions C56_choose_features.
Theorem C56_choose_features_answers : forall feats fs gen,
  (exists r, choose_features feats fs gen = Ok r) <->
  match fs with
  | FSNone | FSSqrt => True
  | FSInt k => (0 <= k <= Z.of_nat (length feats))%Z
  | FSFloat r => (- (1) < r * rat (length feats))%Qc /\ (r * rat (length feats) <= rat (length feats))%Qc
  | FSOther => False
  end.
Proof. exact choose_features_ok. Qed.
Print Assumptions C56_choose_features_answers.
Example C56_ex : NoDup [2; 5; 7; 9; 11] /\
  choose_features [2; 5; 7; 9; 11] FSSqrt [3; 0; 1] = Ok ([9; 2; 7], []) /\
  choose_features [2; 5; 7; 9; 11] (FSFloat (frac 1 2)) [3; 0; 1] = Ok ([9; 2; 7], []).
Proof. split; [repeat constructor; cbn; lia|split; vm_compute; reflexivity]. Qed.

Theorem C57_counts_of_labels : forall classes labels, NoDup classes ->
  (incl labels classes -> counts_of_labels (class_to_idx classes) labels = Ok (map (fun k => occurrences k labels) classes) /\
     list_sum (map (fun k => occurrences k labels) classes) = length labels) /\
  (~ incl labels classes -> counts_of_labels (class_to_idx classes) labels = Err KeyError).
Proof. exact counts_exact. Qed.
Print Assumptions C57_counts_of_labels.
(** The same for a dictionary the caller made. *)
Theorem C57_counts_of_labels_any : forall d labels cs, good_classes d -> counts_of_labels d labels = Ok cs ->
  length cs = length d /\ (forall y, In y labels -> In y (map fst d)) /\
  (forall k i, In (k, i) d -> nth_error cs i = Some (occurrences k labels)) /\ list_sum cs = length labels.
Proof. exact counts_any. Qed.
Print Assumptions C57_counts_of_labels_any.
Example C57_ex : NoDup [z 4; z 1] /\ incl [z 1; z 4; z 1] [z 4; z 1] /\ good_classes [(z 4, 1); (z 1, 0)] /\
  counts_of_labels [(z 4, 1); (z 1, 0)] [z 1; z 4; z 1] = Ok [2; 1].
Proof.
  split; [repeat constructor; cbn; intros H; intuition discriminate|]. split; [intros x I; cbn in *; tauto|]. split; [|vm_compute; reflexivity].
  split; [repeat constructor; cbn; intros H; intuition discriminate|]. split; [repeat constructor; cbn; intros H; intuition discriminate|].
  intros k i [E|[E|[]]]; injection E as _ <-; cbn; lia.
Qed.

Theorem C60_classification_targets : forall t p, (t + smoothing <> 0)%Qc -> (p + smoothing <> 0)%Qc ->
  get_next_target CELoss true t p = Ok (Fin ((p * p + smoothing) / (p + smoothing))%Qc).
Proof. exact next_target_class. Qed.
Print Assumptions C60_classification_targets.
Example C60_ex : (z 1 + smoothing <> 0)%Qc /\ (z 0 + smoothing <> 0)%Qc /\ get_next_target CELoss true (z 1) (z 0) = Ok (Fin 1%Qc) /\
  get_next_target CELoss true (- smoothing)%Qc (z 0) = Ok NaN.
Proof. split; [discriminate|]. split; [discriminate|]. split; [|vm_compute; reflexivity]. cbn. do 2 f_equal. apply Qc_is_canon. reflexivity. Qed.

Theorem C63_verify_reduction : forall W data labels f v, rectangular W data -> f < W -> length data = length labels ->
  verify_reduction data labels f v =
  Ok (negb (length (left_part f v (combine data labels)) =? 0) && negb (length (right_part f v (combine data labels)) =? 0)).
Proof. exact verify_reduction_spec. Qed.
Print Assumptions C63_verify_reduction.
Example C63_ex : rectangular 2 X6 /\ length X6 = length Y6 /\ verify_reduction X6 Y6 0 (z 2) = Ok true /\ verify_reduction X6 Y6 0 (z 1000) = Ok false.
Proof. split; [intros r I; repeat (destruct I as [<-|I]; [reflexivity|]); destruct I|]. repeat split; vm_compute; reflexivity. Qed.

Theorem C64_filter_tied_arms : forall cand tied B,
  (forall c, In c cand -> snd c < B) -> (forall c, In c tied -> snd c < B) ->
  (forall c, In c (filter_tied_arms cand tied B) <-> In c cand /\ ~ In c tied) /\
  NoDup (filter_tied_arms cand tied B) /\ StronglySorted row_major (filter_tied_arms cand tied B).
Proof. exact filter_tied_exact. Qed.
Print Assumptions C64_filter_tied_arms.
Example C64_ex : filter_tied_arms [(1, 0); (0, 2); (1, 0); (0, 1)] [(0, 2); (3, 3)] 4 = [(0, 1); (1, 0)].
Proof. reflexivity. Qed.
(** The bins must be below B: otherwise pairs are confused. *)
Example C64_needs_bins : filter_tied_arms [(0, 5)] [(1, 1)] 4 = [] /\ ~ In (0, 5) [(1, 1)].
Proof. split; [reflexivity|]. intros [E|[]]. discriminate E. Qed.

Theorem C113_automatic_bin_type : forall D N B bt, choose_bin_type D N B = bt <-> cheapest D N B bt.
Proof. exact bin_type_cheapest. Qed.
Print Assumptions C113_automatic_bin_type.
Example C113_ex : cheapest (Some 4) 7 4 DISCRETE /\ cheapest (Some 9) 7 7 IDENTITY /\ cheapest None 100 11 LINEAR.
Proof. cbn. lia. Qed.

(** ** Bins under the automatic bin type *)
Theorem C130_own_bins_refuted : exists data labels dd B mh mh' h h', make_histograms true data labels None dd BAuto B [] = Ok mh /\ make_histograms true data labels None None BAuto B [] = Ok mh' /\
  listed dd 1 = None /\ nth_error (mh_hists mh) 1 = Some h /\ nth_error (mh_hists mh') 1 = Some h' /\ h_nb h <> h_nb h'.
Proof. exact bins_leak. Qed.
Print Assumptions C130_own_bins_refuted.
(** What happens instead: evenly spaced bins come in the number the earlier features left behind. *)
Theorem C130_own_bins_partial : forall ic data labels mm dd B np mh j h, make_histograms ic data labels mm dd BAuto B np = Ok mh -> nth_error (mh_hists mh) j = Some h ->
  exists n fd, left_behind dd (length data) B j n /\ col data j = Ok fd /\ auto_hist dd (length data) B j n fd mm h.
Proof. exact auto_bins. Qed.
Print Assumptions C130_own_bins_partial.
Example C130_ex : left_behind first_listed 4 3 1 2 /\ cheapest (listed first_listed 1) 4 3 LINEAR /\ cheapest (listed first_listed 0) 4 3 DISCRETE.
Proof. exact left_ex. Qed.

(** Fitting a tree with an arbitrary split search and arbitrary arithmetic.

    The text of Tree.v from [calculate_best_split] to [tree_fit] (same lines of node.py and
    tree_base.py), with everything that computes with impurities replaced by a parameter: the split
    search, the products and quotients that weigh a reduction, the comparison of reductions, and the
    proportion of a child.  Floating point, another search or another criterion are other values of
    the parameter; [exact_ops] is the one of Tree.v. *)
From Coq Require Import List Arith Bool ZArith QArith Qcanon Lia.
From Verif Require Import Base Num Rng Histogram Utils Criteria Solvers Tree.
Import ListNotations.
Local Open Scope nat_scope.

Record ops := {
  (** the call of the solver, node.py:117-153 *)
  o_solve : node -> option Z -> env -> res (sres * nat * env);
  (** the reduction times the node's proportion, node.py:161-162 *)
  o_weigh : xn -> Qc -> xn;
  (** reduction * n_data / tree n_data, tree_base.py:185-188 *)
  o_scale : xn -> nat -> nat -> xn;
  (** [<] on reductions *)
  o_lt : xn -> xn -> bool;
  (** a child's proportion, node.py:187-189 *)
  o_share : Qc -> nat -> nat -> Qc
}.
Definition exact_ops (M : math) (c : tcfg) : ops :=
  {| o_solve := node_solve M c;
     o_weigh := fun red p => xmul red (Fin p);
     o_scale := fun red n N => xdiv (xmul red (Fin (Nq n))) (Fin (Nq N));
     o_lt := xlt;
     o_share := fun p k n => (p * (Nq k / Nq n))%Qc |}.

(** Node.calculate_best_split, node.py:108-177: the node with its cache filled, the returned
    reduction (None when there is no split). *)
Definition gen_calculate_best_split (O : ops) (c : tcfg) (nd : node) (budget : option Z) (e : env)
  : res (node * option xn * env) :=
  if nd_computed nd then Ok (nd, nd_red nd, e) else
  do r <- o_solve O nd budget e;
  let '(s, bins, e') := r in
  match s with
  | Found f v red q =>
      do sf <- nth_res (nd_feats nd) f;
      let red' := o_weigh O red (nd_prop nd) in
      Ok (with_solution nd bins (Some sf) (Some f) (Some v) (Some red') q, Some red', e')
  | NoSplit q =>
      Ok (with_solution nd bins (nd_sf nd) (nd_psf nd) (nd_sv nd) (nd_red nd) q, None, e')
  end.


(** create_child_node, node.py:179-195. *)
Definition gen_create_child (O : ops) (c : tcfg) (t : tree) (pid : nat) (nd : node) (labels : list Qc)
  (idcs : list nat) (e : env) : res (node * env) :=
  node_new c t (Some pid) idcs (S (nd_depth nd))
           (o_share O (nd_prop nd) (length idcs) (length labels)) (nd_bins nd) e.

(** Node.split, node.py:197-239. *)
Definition gen_node_split (O : ops) (c : tcfg) (t : tree) (id : nat) (e : env) : res (tree * env) :=
  do nd0 <- nth_res (t_nodes t) id;
  do _ <- guard (negb (nd_split_done nd0)) GenericException;
  do ne <- match nd_sf nd0 with
           | Some _ => Ok (nd0, e)
           | None => do r <- gen_calculate_best_split O c nd0 None e; Ok (fst (fst r), snd r)
           end;
  let '(nd, e) := ne in
  match nd_red nd with
  | None => Ok (put_node t id nd, e)
  | Some red =>
      do _ <- guard (o_lt O red (Fin 0)) AssertionError;
      do data <- opt_res (nd_data nd) AttributeError;
      do labels <- opt_res (nd_labels nd) AttributeError;
      do f <- opt_res (nd_psf nd) AttributeError;
      do v <- opt_res (nd_sv nd) TypeError;
      do cl <- col data f;
      let L := map snd (filter (fun p => qle (fst p) v) (combine cl (nd_idcs nd))) in
      let R := map snd (filter (fun p => qlt v (fst p)) (combine cl (nd_idcs nd))) in
      if (length L =? 0) || (length R =? 0) then Err AttributeError else
      do le <- gen_create_child O c t id nd labels L e;
      do re <- gen_create_child O c t id nd labels R (snd le);
      let k := length (t_nodes t) in
      let t1 := put_node t id (with_children nd k (S k)) in
      Ok (set_nodes t1 (t_nodes t1 ++ [fst le; fst re]), snd re)
  end.


(** check_splittable, tree_base.py:166-191. *)
Definition gen_check_splittable (O : ops) (c : tcfg) (t : tree) (nd : node) (e : env)
  : res (bool * node * env) :=
  do ok <- check_constraints c nd;
  if negb ok then Ok (false, nd, e) else
  do r1 <- gen_calculate_best_split O c nd None e;
  let '(nd1, o1, e1) := r1 in
  match o1 with
  | None => Ok (false, nd1, e1)
  | Some _ =>
      do r2 <- gen_calculate_best_split O c nd1 None e1;
      let '(nd2, o2, e2) := r2 in
      do red <- opt_res o2 TypeError;
      Ok (o_lt O (o_scale O red (nd_n nd2) (t_n t)) (Fin (tc_min_imp c)), nd2, e2)
  end.


(** One iteration of the for loop, tree_base.py:248-284. *)
Definition gen_scan_leaf (O : ops) (c : tcfg) (s : scan) (pl : nat * nat) : res scan :=
  if sc_stop s then Ok s else
  let '(pos, id) := pl in
  let t := sc_tree s in
  do nd <- nth_res (t_nodes t) id;
  do ok <- check_constraints c nd;
  if negb ok then
    Ok {| sc_tree := put_node t id (with_splittable nd false); sc_env := sc_env s;
          sc_best := sc_best s; sc_stop := false |}
  else
  if match t_budget t with None => false | Some b => (b <=? 0)%Z end then
    Ok {| sc_tree := t; sc_env := sc_env s; sc_best := sc_best s; sc_stop := true |}
  else
  let already := nd_computed nd in
  do r <- gen_calculate_best_split O c nd (t_budget t) (sc_env s);
  let '(nd1, red, e1) := r in
  let t1 := put_node t id nd1 in
  let t2 := if already then t1 else pay t1 (nd_queries nd1) in
  do q <- match nd_splittable nd1 with
          | Some b => Ok (b, nd1, e1)
          | None => do k <- gen_check_splittable O c t2 nd1 e1;
                    let '(b, nd2, e2) := k in Ok (b, with_splittable nd2 b, e2)
          end;
  let '(spl, nd3, e3) := q in
  let t3 := put_node t2 id nd3 in
  let best :=
    match red with
    | None => sc_best s
    | Some x =>
        let cur := match sc_best s with None => PInf | Some (_, _, y) => y end in
        if o_lt O x cur && spl then Some (pos, id, x) else sc_best s
    end in
  Ok {| sc_tree := t3; sc_env := e3; sc_best := best; sc_stop := false |}.


(** One iteration of the best-first loop after the max_leaf_nodes test,
    tree_base.py:239-307; the boolean is sufficient_impurity_decrease. *)
Definition gen_fit_step (O : ops) (c : tcfg) (t : tree) (e : env) : res (tree * env * bool) :=
  do s <- foldM (gen_scan_leaf O c)
                {| sc_tree := t; sc_env := e; sc_best := None; sc_stop := false |}
                (combine (seq 0 (length (t_leaves t))) (t_leaves t));
  let t1 := sc_tree s in
  let e1 := sc_env s in
  do tec <- match sc_best s with
            | Some (pos, id, x) =>
                if o_lt O x (Fin (tc_min_imp c)) then
                  do te <- gen_node_split O c t1 id e1;
                  let t2 := inc_splits (fst te) in
                  let lv := remove_nth pos (t_leaves t2) in
                  do nd <- nth_res (t_nodes t2) id;
                  let t2 := put_node t2 id (with_preds nd None None (nd_pval nd)) in
                  let lv := match nd_left nd, nd_right nd with
                            | Some l, Some r => lv ++ [l; r]
                            | _, _ => lv
                            end in
                  Ok (set_leaves t2 lv, snd te, true)
                else Ok (t1, e1, false)
            | None => Ok (t1, e1, false)
            end;
  let '(t3, e3, cont) := tec in
  do d <- get_depth t3;
  Ok (set_depth t3 d, e3, cont).

(** The while loop, tree_base.py:229-307. *)
Fixpoint gen_fit_loop (O : ops) (c : tcfg) (fuel : nat) (t : tree) (e : env) : res (tree * env) :=
  let full := match tc_max_leaves c with
              | None => Ok false
              | Some m => if length (t_leaves t) =? m then Ok true
                          else if m <? length (t_leaves t) then Err GenericException
                          else Ok false
              end in
  do stop <- full;
  if stop then Ok (t, e) else
  match fuel with
  | 0 => Err OutOfFuel
  | S fuel' =>
      do r <- gen_fit_step O c t e;
      let '(t', e', cont) := r in
      if cont then gen_fit_loop O c fuel' t' e' else Ok (t', e')
  end.


(** TreeBase.fit, tree_base.py:207-319.  [arg]: the optional (data, labels) arguments, each
    optional.  fit only rebinds self.data/self.labels: the root node was built by the
    constructor. *)
Definition gen_tree_fit (O : ops) (c : tcfg) (t : tree) (arg : option (list (list Qc)) * option (list Qc))
  (e : env) : res (tree * env) :=
  do t <- match arg with
          | (None, None) => Ok t
          | (Some d, Some l) =>
              Ok {| t_data := d; t_labels := l; t_n := length l; t_dd := t_dd t; t_feats := t_feats t;
                    t_nodes := t_nodes t; t_leaves := t_leaves t; t_budget := t_budget t;
                    t_queries := t_queries t; t_splits := t_splits t; t_depth := t_depth t |}
          | _ => Err GenericException
          end;
  let mkd := match tc_bin c with LINEAR | IDENTITY => false | _ => tc_make_discrete c end in
  do t <- (if mkd : bool then
             do d <- data_to_discrete (t_data t) 10;
             Ok {| t_data := t_data t; t_labels := t_labels t; t_n := t_n t; t_dd := Some d;
                   t_feats := t_feats t; t_nodes := t_nodes t; t_leaves := t_leaves t;
                   t_budget := t_budget t; t_queries := t_queries t; t_splits := t_splits t;
                   t_depth := t_depth t |}
           else Ok t);
  match tc_splitter c with
  | BEST =>
      let t := set_leaves t (t_leaves t ++ [0]) in
      gen_fit_loop O c (S (leaf_rows t)) t e
  | DEPTH | SplitterOther => Err GenericException
  end.

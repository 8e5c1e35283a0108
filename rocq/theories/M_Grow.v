(** * Model of wildwood/_grow.py and of the [fit] methods of wildwood/tree.py *)

Require Import List Arith NArith.
Require Import Verif.Base Verif.Num Verif.M_Bitarray Verif.M_Utils
  Verif.M_Context Verif.M_Node Verif.M_Split Verif.M_Tree.
Import ListNotations.
Local Open Scope res_scope.

(** ** The stack of records *)

(** _grow.py:34-45, [record_dtype]. [rc_parent = None] is TREE_UNDEFINED,
    [rc_impurity = None] is [+inf]. *)
Record record (A : arith) : Type := mkRec {
  rc_parent : option nat;
  rc_depth : nat;
  rc_is_left : bool;
  rc_impurity : option (num A);
  rc_start_train : nat;
  rc_end_train : nat;
  rc_start_valid : nat;
  rc_end_valid : nat
}.
Arguments mkRec {A}.
Arguments rc_parent {A}. Arguments rc_depth {A}. Arguments rc_is_left {A}. Arguments rc_impurity {A}.
Arguments rc_start_train {A}. Arguments rc_end_train {A}. Arguments rc_start_valid {A}.
Arguments rc_end_valid {A}.

(** _grow.py:58-80, class [Records]. *)
Record records (R : Type) : Type := mkRecords { rs_capacity : nat; rs_top : nat; rs_stack : list R }.
Arguments mkRecords {R}. Arguments rs_capacity {R}. Arguments rs_top {R}. Arguments rs_stack {R}.

(** [Records(capacity)]; [junk] is the content of the uninitialised memory. *)
Definition new_records {R} (junk : nat -> R) (capacity : nat) : records R :=
  mkRecords capacity 0 (map junk (seq 0 capacity)).

(** _grow.py:94-154, [push_record]. *)
Definition push_record {R} (junk : nat -> R) (rs : records R) (r : R) : res (records R) :=
  let* rs1 :=
    (if rs_capacity rs <=? rs_top rs then
       let c := rs_capacity rs * 2 in
       let* st := resize junk (rs_stack rs) c in
       Ok (mkRecords c (rs_top rs) st)
     else Ok rs) in
  let* st := set (rs_stack rs1) (rs_top rs1) r in
  Ok (mkRecords (rs_capacity rs1) (rs_top rs1 + 1) st).

(** _grow.py:164-177, [has_records]. *)
Definition has_records {R} (rs : records R) : bool := 0 <? rs_top rs.

(** _grow.py:188-229, [pop_node_record]. *)
Definition pop_node_record {R} (rs : records R) : res (R * records R) :=
  let* top := usub (rs_top rs) 1 in
  let* r := get (rs_stack rs) top in
  Ok (r, mkRecords (rs_capacity rs) top (rs_stack rs)).

(** ** Aggregation weights *)

(** Body of the loop of _grow.py:561-577. *)
Definition weight_step {A : arith} (step : num A) (nodes : list (node A)) (idx : nat)
  : res (list (node A)) :=
  let* n := get nodes idx in
  let loss := amul (aopp step) (nd_loss n) in
  if nd_is_leaf n then set nodes idx (with_logw n (Some loss))
  else
    let* l := idx_of (nd_left n) in
    let* r := idx_of (nd_right n) in
    let* ln := get nodes l in
    let* rn := get nodes r in
    let* wl := logw_of (nd_logw ln) in
    let* wr := logw_of (nd_logw rn) in
    set nodes idx (with_logw n (Some (log_sum_2_exp loss (aadd wl wr)))).

(** _grow.py:541-577, [compute_tree_weights]: from the last node to the first. *)
Definition compute_tree_weights {A : arith} (nodes : list (node A)) (node_count : nat)
  (step : num A) : res (list (node A)) :=
  foldM (weight_step step) (rev (seq 0 node_count)) nodes.

Section Grow.
Context {A : arith} {E : env A} (tk : task A E).
Notation T := (num A).
Notation tree := (tree A (tk_P tk)).

Definition with_nodes (t : tree) (nodes : list (node A)) : tree :=
  mkTree (tr_max_depth t) (tr_node_count t) (tr_capacity t) nodes (tr_y_pred t)
    (tr_bp_capacity t) (tr_bp t) (tr_bp_end t).

Definition with_y_pred (t : tree) (yp : list (tk_P tk)) : tree :=
  mkTree (tr_max_depth t) (tr_node_count t) (tr_capacity t) (tr_nodes t) yp
    (tr_bp_capacity t) (tr_bp t) (tr_bp_end t).

(** Content of uninitialised memory of the stack. *)
Definition junk_record (i : nat) : record A :=
  mkRec (Some (mem E i)) (mem E i) false None (mem E i) (mem E i) (mem E i) (mem E i).

(** Everything [grow] writes. *)
Record gstate : Type := mkG {
  g_tree : tree;
  g_parts : parts;
  g_rng : rng E;
  g_fs : fsamp;
  g_records : records (record A)
}.

(** _grow.py:361-381: the node is a leaf without looking for a split. *)
Definition stop_test (tc : tctx A (tk_Y tk)) (nc : nctx tk) (depth : nat) (imp : option T) : bool :=
  let mss := tc_min_samples_split tc in
  ((if tc_aggregation tc
    then (nc_n_train nc <? mss) || (nc_n_valid nc <? mss)
    else nc_n_train nc <? mss)
   || match imp with None => false | Some x => aleb x a0 end
   || (tc_max_depth tc <=? N.of_nat depth)%N)%bool.

(** _grow.py:385-399. A leaf gets the same fields as a reset split. *)
Definition choose_split (tc : tctx A (tk_Y tk)) (nc : nctx tk) (s : rng E) (depth : nat)
  (imp : option T) : res (bool * split tk * rng E) :=
  if stop_test tc nc depth imp then Ok (true, reset_split tk, s)
  else let* ' (sp, s') := find_node_split tk tc nc s in
       Ok (negb (sp_found sp), sp, s').

(** Body of the while loop, _grow.py:339-510. *)
Definition grow_step (tc : tctx A (tk_Y tk)) (g : gstate) : res gstate :=
  let* ' (r, rs) := pop_node_record (g_records g) in
  let* ' (nc, s, fs) :=
    compute_node_context tk tc (g_parts g) (g_rng g) (g_fs g)
      (rc_start_train r) (rc_end_train r) (rc_start_valid r) (rc_end_valid r) in
  let* ' (is_leaf, sp, s') := choose_split tc nc s (rc_depth r) (rc_impurity r) in
  let* ' (t, node_id) :=
    add_node_tree (mem E) (tk_pred0 tk) (g_tree g)
      (mkNew (rc_parent r) (rc_depth r) (rc_is_left r) is_leaf (sp_feature sp) (sp_threshold sp)
         (rc_impurity r) (nc_n_train nc) (nc_n_valid nc) (nc_w_train nc) (nc_w_valid nc)
         (rc_start_train r) (rc_end_train r) (rc_start_valid r) (rc_end_valid r)
         (nc_loss nc) (sp_is_cat sp) (sp_partition sp)) in
  let* yp := set (tr_y_pred t) node_id (nc_pred nc) in
  let t' := with_y_pred t yp in
  if (is_leaf : bool) then Ok (mkG t' (g_parts g) s' fs rs)
  else
    let* ' (ps, pos_train, pos_valid) :=
      split_indices tk tc (g_parts g) sp
        (rc_start_train r) (rc_end_train r) (rc_start_valid r) (rc_end_valid r) in
    let* rs1 := push_record junk_record rs
      (mkRec (Some node_id) (rc_depth r + 1) true (Some (sp_imp_left sp))
         (rc_start_train r) pos_train (rc_start_valid r) pos_valid) in
    let* rs2 := push_record junk_record rs1
      (mkRec (Some node_id) (rc_depth r + 1) false (Some (sp_imp_right sp))
         pos_train (rc_end_train r) pos_valid (rc_end_valid r)) in
    Ok (mkG t' ps s' fs rs2).

(** The while loop. *)
Fixpoint grow_loop (fuel : nat) (tc : tctx A (tk_Y tk)) (g : gstate) : res gstate :=
  if has_records (g_records g) then
    match fuel with
    | O => Err Fuel
    | S fuel' => let* g' := grow_step tc g in grow_loop fuel' tc g'
    end
  else Ok g.

(** _grow.py:303 and 30. *)
Definition init_capacity : nat := 2047.
Definition initial_stack_size : nat := 10.

(** _grow.py:273-522, [grow]. The loop gets fuel [2 * n_samples_train + 1], which is shown
    to be enough. *)
Definition grow (tc : tctx A (tk_Y tk)) (t : tree) (ps : parts) (s : rng E) (fs : fsamp)
  : res gstate :=
  let n_train := length (p_train ps) in
  let n_valid := length (p_valid ps) in
  let* t0 := resize_tree (tk_pred0 tk) t (Some init_capacity) in
  let* rs := push_record junk_record (new_records junk_record initial_stack_size)
               (mkRec None 0 false None 0 n_train 0 n_valid) in
  let* g := grow_loop (2 * n_train + 1) tc (mkG t0 ps s fs rs) in
  if tc_aggregation tc then
    let* nodes := compute_tree_weights (tr_nodes (g_tree g)) (tr_node_count (g_tree g)) (tc_step tc) in
    Ok (mkG (with_nodes (g_tree g) nodes) (g_parts g) (g_rng g) (g_fs g) (g_records g))
  else Ok g.

(** tree.py:241-306 and 376-427, the [fit] methods: tree, contexts, grow. *)
Record tree_params : Type := mkTP {
  tp_max_features : nat;
  tp_min_samples_split : nat;
  tp_min_samples_leaf : nat;
  tp_max_depth : N;
  tp_aggregation : bool;
  tp_step : T;
  tp_is_categorical : list bool
}.

Definition init_tree_context (p : tree_params) (fb : fba) (y : list (tk_Y tk))
  (weights : list T) : res (tctx A (tk_Y tk)) :=
  let* mb := init_max_n_bins fb in
  Ok (mkTctx _ fb mb y weights (tp_max_features p) (tp_min_samples_split p)
        (tp_min_samples_leaf p) (tp_max_depth p) (tp_aggregation p) (tp_step p)
        (tp_is_categorical p)).

Definition tree_fit (p : tree_params) (fb : fba) (y : list (tk_Y tk)) (train valid : list nat)
  (weights : list T) (s : rng E) : res (tctx A (tk_Y tk) * gstate) :=
  let* tc := init_tree_context p fb y weights in
  let* g := grow tc empty_tree (init_parts E fb train valid) s
              (init_fsamp (fb_n_features fb) (tp_max_features p)) in
  Ok (tc, g).

End Grow.

(** ** Recomputing the predictions for another dirichlet parameter *)

(** Body of the loop over nodes of _grow.py:630-661. [label] and [weight] reads follow the
    order of the source; [tk_pred_end] of the classification task is the formula of lines
    641-644, with the new [dirichlet]. *)
Definition recompute_node {A : arith} {E : env A} (n_classes : nat) (dirichlet : num A)
  (y : list nat) (weights : list (num A)) (ps : parts)
  (st : list (node A) * list (list (num A))) (idx : nat)
  : res (list (node A) * list (list (num A))) :=
  let '(nodes, y_pred) := st in
  let tk := clf_task E n_classes dirichlet Gini AllMods in
  let* n := get nodes idx in
  let* train := slice (p_train ps) (nd_start_train n) (nd_end_train n) in
  let* ' (w, p) := foldM (fun '(w, p) i =>
                     let* label := get y i in
                     let* sw := get weights i in
                     let* p' := tk_pred_add tk p label sw in
                     Ok (aadd w sw, p')) train (a0, tk_pred0 tk) in
  let* p' := tk_pred_end tk p w in
  let* yp := set y_pred idx p' in
  let* valid := slice (p_valid ps) (nd_start_valid n) (nd_end_valid n) in
  let* loss := foldM (fun loss i =>
                 let* sw := get weights i in
                 let* label := get y i in
                 tk_loss_add tk loss p' label sw) valid a0 in
  let* nodes' := set nodes idx (with_loss n loss) in
  Ok (nodes', yp).

(** _grow.py:605-666, [recompute_node_predictions]. *)
Definition recompute_node_predictions {A : arith} (E : env A) (n_classes : nat)
  (dirichlet : num A) (tc : tctx A nat) (ps : parts) (t : tree A (list (num A)))
  : res (tree A (list (num A))) :=
  let* ' (nodes, yp) :=
    foldM (recompute_node (E := E) n_classes dirichlet (tc_y tc) (tc_weights tc) ps)
      (seq 0 (tr_node_count t)) (tr_nodes t, tr_y_pred t) in
  let* nodes' := (if tc_aggregation tc
                  then compute_tree_weights nodes (tr_node_count t) (tc_step tc)
                  else Ok nodes) in
  Ok (mkTree (tr_max_depth t) (tr_node_count t) (tr_capacity t) nodes' yp (tr_bp_capacity t)
        (tr_bp t) (tr_bp_end t)).

Arguments g_tree {A E tk}. Arguments g_parts {A E tk}. Arguments g_rng {A E tk}.
Arguments g_fs {A E tk}. Arguments g_records {A E tk}.

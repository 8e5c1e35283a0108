(** * Model of wildwood/_tree.py: the array of nodes and predictions *)

Require Import List Arith NArith.
Require Import Verif.Base Verif.Num Verif.M_Bitarray Verif.M_Utils
  Verif.M_Context Verif.M_Split.
Import ListNotations.
Local Open Scope res_scope.

Section Tree.
Context {A : arith} (P : Type).
Notation T := (num A).

(** _node.py:29-113, [node_dtype]. Integer sentinels are [None]: TREE_UNDEFINED for the
    parent of the root and for the feature and bin threshold of a leaf, TREE_LEAF for the
    children of a leaf. [nd_impurity = None] is [+inf], [nd_logw = None] is NaN. The field
    [threshold] (the constant 0.42, never read) is not modelled. *)
Record node : Type := mkNode {
  nd_id : nat;
  nd_parent : option nat;
  nd_left : option nat;
  nd_right : option nat;
  nd_is_leaf : bool;
  nd_is_left : bool;
  nd_depth : nat;
  nd_feature : option nat;
  nd_threshold : option nat;      (* bin_threshold *)
  nd_impurity : option T;
  nd_loss : T;                    (* loss_valid *)
  nd_logw : option T;             (* log_weight_tree *)
  nd_n_train : nat;
  nd_n_valid : nat;
  nd_w_train : T;
  nd_w_valid : T;
  nd_start_train : nat;
  nd_end_train : nat;
  nd_start_valid : nat;
  nd_end_valid : nat;
  nd_is_cat : bool;               (* is_split_categorical *)
  nd_bp_start : nat;
  nd_bp_end : nat
}.

(** [np.zeros(..., dtype=node_dtype)]. *)
Definition node0 : node :=
  mkNode 0 (Some 0) (Some 0) (Some 0) false false 0 (Some 0) (Some 0) (Some a0) a0 (Some a0)
    0 0 a0 a0 0 0 0 0 false 0 0.

Definition with_left (n : node) (c : option nat) : node :=
  mkNode (nd_id n) (nd_parent n) c (nd_right n) (nd_is_leaf n) (nd_is_left n) (nd_depth n)
    (nd_feature n) (nd_threshold n) (nd_impurity n) (nd_loss n) (nd_logw n) (nd_n_train n)
    (nd_n_valid n) (nd_w_train n) (nd_w_valid n) (nd_start_train n) (nd_end_train n)
    (nd_start_valid n) (nd_end_valid n) (nd_is_cat n) (nd_bp_start n) (nd_bp_end n).

Definition with_right (n : node) (c : option nat) : node :=
  mkNode (nd_id n) (nd_parent n) (nd_left n) c (nd_is_leaf n) (nd_is_left n) (nd_depth n)
    (nd_feature n) (nd_threshold n) (nd_impurity n) (nd_loss n) (nd_logw n) (nd_n_train n)
    (nd_n_valid n) (nd_w_train n) (nd_w_valid n) (nd_start_train n) (nd_end_train n)
    (nd_start_valid n) (nd_end_valid n) (nd_is_cat n) (nd_bp_start n) (nd_bp_end n).

Definition with_logw (n : node) (w : option T) : node :=
  mkNode (nd_id n) (nd_parent n) (nd_left n) (nd_right n) (nd_is_leaf n) (nd_is_left n)
    (nd_depth n) (nd_feature n) (nd_threshold n) (nd_impurity n) (nd_loss n) w (nd_n_train n)
    (nd_n_valid n) (nd_w_train n) (nd_w_valid n) (nd_start_train n) (nd_end_train n)
    (nd_start_valid n) (nd_end_valid n) (nd_is_cat n) (nd_bp_start n) (nd_bp_end n).

Definition with_loss (n : node) (l : T) : node :=
  mkNode (nd_id n) (nd_parent n) (nd_left n) (nd_right n) (nd_is_leaf n) (nd_is_left n)
    (nd_depth n) (nd_feature n) (nd_threshold n) (nd_impurity n) l (nd_logw n) (nd_n_train n)
    (nd_n_valid n) (nd_w_train n) (nd_w_valid n) (nd_start_train n) (nd_end_train n)
    (nd_start_valid n) (nd_end_valid n) (nd_is_cat n) (nd_bp_start n) (nd_bp_end n).

(** _tree.py:95-238, [_TreeClassifier] and [_TreeRegressor]. [tr_max_depth] is set to 0 by
    the constructor and never written again. The random state is in the environment. *)
Record tree : Type := mkTree {
  tr_max_depth : nat;
  tr_node_count : nat;
  tr_capacity : nat;
  tr_nodes : list node;
  tr_y_pred : list P;
  tr_bp_capacity : nat;
  tr_bp : list nat;               (* bin_partitions *)
  tr_bp_end : nat                 (* bin_partitions_end *)
}.

(** _tree.py:144-170 and 212-238, the constructors, called with all sizes 0
    (tree.py:252-265 and 386-397). *)
Definition empty_tree : tree := mkTree 0 0 0 [] [] 0 [] 0.

(** _tree.py:328-342, [resize_tree_]. [pred0] is a row of zeros. *)
Definition resize_tree_ (pred0 : P) (t : tree) (capacity : nat) : res tree :=
  let* nodes := resize (fun _ => node0) (tr_nodes t) capacity in
  let* y_pred := resize (fun _ => pred0) (tr_y_pred t) capacity in
  Ok (mkTree (tr_max_depth t) (tr_node_count t) capacity nodes y_pred (tr_bp_capacity t)
        (tr_bp t) (tr_bp_end t)).

(** _tree.py:355-383, [resize_tree]. *)
Definition resize_tree (pred0 : P) (t : tree) (capacity : option nat) : res tree :=
  match capacity with
  | None => if tr_capacity t =? 0 then resize_tree_ pred0 t 3
            else resize_tree_ pred0 t (2 * tr_capacity t)
  | Some c => if ((c <=? tr_capacity t) && (0 <? length (tr_nodes t)))%bool then Ok t
              else resize_tree_ pred0 t c
  end.

(** _tree.py:393-405, [resize_tree_bin_partitions_]. *)
Definition resize_tree_bin_partitions_ (fill : nat -> nat) (t : tree) (capacity : nat) : res tree :=
  let* bp := resize fill (tr_bp t) capacity in
  Ok (mkTree (tr_max_depth t) (tr_node_count t) (tr_capacity t) (tr_nodes t) (tr_y_pred t)
        capacity bp (tr_bp_end t)).

(** _tree.py:418-445, [resize_tree_bin_partitions]. *)
Definition resize_tree_bin_partitions (fill : nat -> nat) (t : tree) (capacity : option nat)
  : res tree :=
  match capacity with
  | None => if tr_bp_capacity t =? 0 then resize_tree_bin_partitions_ fill t 256
            else resize_tree_bin_partitions_ fill t (2 * tr_bp_capacity t)
  | Some c => if ((c <=? tr_bp_capacity t) && (0 <? length (tr_bp t)))%bool then Ok t
              else resize_tree_bin_partitions_ fill t c
  end.

(** Arguments of [add_node_tree], _tree.py:509-531. *)
Record new_node : Type := mkNew {
  nn_parent : option nat; nn_depth : nat; nn_is_left : bool; nn_is_leaf : bool;
  nn_feature : nat; nn_bin : nat; nn_impurity : option T;
  nn_n_train : nat; nn_n_valid : nat; nn_w_train : T; nn_w_valid : T;
  nn_start_train : nat; nn_end_train : nat; nn_start_valid : nat; nn_end_valid : nat;
  nn_loss : T; nn_is_cat : bool; nn_partition : list nat
}.

(** _tree.py:509-668, [add_node_tree]. [nn_partition] is
    [bin_partition[:bin_partition_size]]. *)
Definition add_node_tree (fill : nat -> nat) (pred0 : P) (t : tree) (x : new_node)
  : res (tree * nat) :=
  let idx := tr_node_count t in
  let* t1 := (if tr_capacity t <=? idx then resize_tree pred0 t None else Ok t) in
  let* old := get (tr_nodes t1) idx in
  let n := mkNode idx (nn_parent x) (nd_left old) (nd_right old) (nn_is_leaf x) (nd_is_left old)
             (nn_depth x) (nd_feature old) (nd_threshold old) (nn_impurity x) (nn_loss x) None
             (nn_n_train x) (nn_n_valid x) (nn_w_train x) (nn_w_valid x) (nn_start_train x)
             (nn_end_train x) (nn_start_valid x) (nn_end_valid x) (nd_is_cat old)
             (nd_bp_start old) (nd_bp_end old) in
  let* nodes1 := set (tr_nodes t1) idx n in
  (* _tree.py:631-635: the parent gets its child *)
  let* nodes2 :=
    match nn_parent x with
    | None => Ok nodes1
    | Some p => let* pn := get nodes1 p in
                set nodes1 p (if nn_is_left x then with_left pn (Some idx)
                              else with_right pn (Some idx))
    end in
  let* n2 := get nodes2 idx in
  (* _tree.py:651-665: the bin partition *)
  let* ' (t2, bs, be) :=
    (if (nn_is_cat x && (0 <? length (nn_partition x)))%bool then
       let bs := tr_bp_end t1 in
       let be := bs + length (nn_partition x) in
       let* t2 := (if tr_bp_capacity t1 <? be
                   then resize_tree_bin_partitions fill t1 (Some (be + 1)) else Ok t1) in
       let* bp := splice (tr_bp t2) bs (nn_partition x) in
       Ok (mkTree (tr_max_depth t2) (tr_node_count t2) (tr_capacity t2) (tr_nodes t2)
             (tr_y_pred t2) (tr_bp_capacity t2) bp be, bs, be)
     else Ok (t1, 0, 0)) in
  let n3 := mkNode (nd_id n2) (nd_parent n2)
              (if nn_is_leaf x then None else nd_left n2)
              (if nn_is_leaf x then None else nd_right n2)
              (nd_is_leaf n2) (nd_is_left n2) (nd_depth n2)
              (if nn_is_leaf x then None else Some (nn_feature x))
              (if nn_is_leaf x then None else Some (nn_bin x))
              (nd_impurity n2) (nd_loss n2) (nd_logw n2) (nd_n_train n2) (nd_n_valid n2)
              (nd_w_train n2) (nd_w_valid n2) (nd_start_train n2) (nd_end_train n2)
              (nd_start_valid n2) (nd_end_valid n2) (nn_is_cat x) bs be in
  let* nodes3 := set nodes2 idx n3 in
  Ok (mkTree (tr_max_depth t2) (idx + 1) (tr_capacity t2) nodes3 (tr_y_pred t2)
        (tr_bp_capacity t2) (tr_bp t2) (tr_bp_end t2), idx).

(** A sentinel where an index is needed: in the compiled code it is an index outside of
    the array. *)
Definition idx_of (o : option nat) : res nat :=
  match o with Some i => Ok i | None => Err OOB end.

(** The child chosen at a node, _tree.py:694-710. *)
Definition next_node (t : tree) (fb : fba) (i : nat) (n : node) : res nat :=
  let* f := idx_of (nd_feature n) in
  let* v := get_value fb i f in
  let b := N.to_nat v in
  let* to_left :=
    (if nd_is_cat n then
       let* part := slice (tr_bp t) (nd_bp_start n) (nd_bp_end n) in
       is_bin_in_partition b part
     else let* th := idx_of (nd_threshold n) in Ok (b <=? th)) in
  idx_of (if (to_left : bool) then nd_left n else nd_right n).

(** _tree.py:689-728, [find_leaf]. *)
Fixpoint find_leaf_loop (fuel : nat) (t : tree) (fb : fba) (i idx : nat) : res nat :=
  match fuel with
  | O => Err Fuel
  | S fuel' =>
      let* n := get (tr_nodes t) idx in
      if nd_is_leaf n then Ok idx
      else let* c := next_node t fb i n in find_leaf_loop fuel' t fb i c
  end.

Definition find_leaf (t : tree) (fb : fba) (i : nat) : res nat :=
  find_leaf_loop (S (tr_node_count t)) t fb i 0.

(** _tree.py:816-840, [tree_apply]. *)
Definition tree_apply (t : tree) (fb : fba) : res (list nat) :=
  mapM (find_leaf t fb) (seq 0 (fb_n_samples fb)).

(** NaN where a number is needed; never met once the weights have been computed. *)
Definition logw_of (o : option T) : res T :=
  match o with Some w => Ok w | None => Err Unbound end.

(** [alpha = 0.5 * exp(-step * loss_valid - log_weight_tree)], _tree.py:910-912. *)
Definition node_alpha (step : T) (n : node) : res T :=
  let* w := logw_of (nd_logw n) in
  Ok (amul ahalf (aexp (asub (amul (aopp step) (nd_loss n)) w))).

(** The loop from a leaf up to the root, _tree.py:900-914, 974-990 and 1066-1078:
    [val idx node] is the value of a node, [mix alpha v current] the new value. *)
Fixpoint climb {V} (fuel : nat) (t : tree) (step : T) (val : nat -> node -> res V)
  (mix : T -> V -> V -> res V) (idx : nat) (v : V) : res V :=
  match fuel with
  | O => Err Fuel
  | S fuel' =>
      if idx =? 0 then Ok v
      else
        let* n := get (tr_nodes t) idx in
        let* p := idx_of (nd_parent n) in
        let* pn := get (tr_nodes t) p in
        let* u := val p pn in
        let* alpha := node_alpha step pn in
        let* v' := mix alpha u v in
        climb fuel' t step val mix p v'
  end.

(** _tree.py:865-918 and 942-994, the prediction for sample [i]. *)
Definition predict_one (mix : T -> P -> P -> res P) (t : tree) (fb : fba) (aggregation : bool)
  (step : T) (i : nat) : res P :=
  let* leaf := find_leaf t fb i in
  let* v := get (tr_y_pred t) leaf in
  if aggregation then
    climb (S (tr_node_count t)) t step (fun idx _ => get (tr_y_pred t) idx) mix leaf v
  else Ok v.

Definition tree_predict (mix : T -> P -> P -> res P) (t : tree) (fb : fba) (aggregation : bool)
  (step : T) : res (list P) :=
  mapM (predict_one mix t fb aggregation step) (seq 0 (fb_n_samples fb)).

(** [alpha * node_pred + (1 - alpha) * pred_i] on numbers, _tree.py:988. *)
Definition mix_num (alpha u v : T) : res T :=
  Ok (aadd (amul alpha u) (amul (asub a1 alpha) v)).

(** The same on vectors of class probabilities, _tree.py:916. *)
Definition mix_vec (alpha : T) (u v : list T) : res (list T) :=
  zipM aadd (map (amul alpha) u) (map (amul (asub a1 alpha)) v).

(** _tree.py:1042-1081, [tree_regressor_weighted_depth], for sample [i]. *)
Definition weighted_depth_one (t : tree) (fb : fba) (step : T) (i : nat) : res T :=
  let* leaf := find_leaf t fb i in
  let* n := get (tr_nodes t) leaf in
  climb (S (tr_node_count t)) t step (fun _ n => Ok (aofnat (nd_depth n))) mix_num leaf
    (aofnat (nd_depth n)).

Definition tree_weighted_depth (t : tree) (fb : fba) (step : T) : res (list T) :=
  mapM (weighted_depth_one t fb step) (seq 0 (fb_n_samples fb)).

End Tree.

Arguments node A : clear implicits.
Arguments tree A P : clear implicits.
Arguments new_node A : clear implicits.
Arguments tr_max_depth {A P}. Arguments tr_node_count {A P}. Arguments tr_capacity {A P}.
Arguments tr_nodes {A P}. Arguments tr_y_pred {A P}. Arguments tr_bp_capacity {A P}.
Arguments tr_bp {A P}. Arguments tr_bp_end {A P}.
Arguments empty_tree {A P}. Arguments resize_tree {A P}. Arguments resize_tree_ {A P}.
Arguments resize_tree_bin_partitions {A P}. Arguments resize_tree_bin_partitions_ {A P}.
Arguments add_node_tree {A P}. Arguments next_node {A P}. Arguments find_leaf_loop {A P}.
Arguments find_leaf {A P}. Arguments tree_apply {A P}. Arguments climb {A P V}.
Arguments predict_one {A P}. Arguments tree_predict {A P}.
Arguments weighted_depth_one {A P}. Arguments tree_weighted_depth {A P}.
Arguments mkTree {A P}.

(** * Specification: repeated rows *)

Require Import List Arith NArith Reals Permutation.
Require Import Verif.Base Verif.Num Verif.M_Bitarray Verif.M_Utils Verif.M_Context Verif.M_Node Verif.M_Tree Verif.S_Fit Verif.S_Tree.
Import ListNotations.

(** Row [i'] of the second data set is a copy of row [orig i'] of the first one: same bins,
    same label. *)
Definition copies {Y} (orig : nat -> nat) (fb fb' : fba) (y y' : list Y) (l' : list nat) : Prop :=
  forall i', In i' l' -> (forall j, j < fb_n_features fb -> bin_of fb' i' j = bin_of fb (orig i') j) /\
                         nth_error y' i' = nth_error y (orig i').

(** The samples [l'] are [times i] copies of each sample [i] of [l], in any order. *)
Definition repeated (orig : nat -> nat) (times : nat -> nat) (l l' : list nat) : Prop :=
  Permutation (map orig l') (flat_map (fun i => repeat i (times i)) l).

(** Sample [i] has weight [times i], a positive integer. *)
Definition integer_weights (times : nat -> nat) (weights : list R) : Prop :=
  forall i w, nth_error weights i = Some w -> 1 <= times i /\ w = INR (times i).
Definition unit_weights (weights : list R) : Prop := forall w, In w weights -> w = 1%R.

(** ** The same statistics of a node, up to the numbers of rows *)

Record same_row {A : arith} {E : env A} {tk : task A E} (r r' : row tk) : Prop := {
  sr_w_train : r_w_train r = r_w_train r';
  sr_w_valid : r_w_valid r = r_w_valid r';
  sr_hist : r_hist r = r_hist r';
  sr_ne_train : forall b, In b (r_ne_train r) <-> In b (r_ne_train r');
  sr_ne_valid : forall b, In b (r_ne_valid r) <-> In b (r_ne_valid r')
}.

Record same_stats {A : arith} {E : env A} {tk : task A E} (nc nc' : nctx tk) : Prop := {
  ss_features : nc_features nc = nc_features nc';
  ss_w_train : nc_w_train nc = nc_w_train nc';
  ss_w_valid : nc_w_valid nc = nc_w_valid nc';
  ss_pred : nc_pred nc = nc_pred nc';
  ss_loss : nc_loss nc = nc_loss nc';
  ss_rows : Forall2 same_row (nc_rows nc) (nc_rows nc')
}.

(** ** The same tree, up to the numbers of rows *)

(** The fields of a node, except the numbers of rows and the positions in the arrays of
    row indices. *)
Record same_node {A : arith} (n n' : node A) : Prop := {
  sn_id : nd_id n = nd_id n';
  sn_parent : nd_parent n = nd_parent n';
  sn_left : nd_left n = nd_left n';
  sn_right : nd_right n = nd_right n';
  sn_is_leaf : nd_is_leaf n = nd_is_leaf n';
  sn_is_left : nd_is_left n = nd_is_left n';
  sn_depth : nd_depth n = nd_depth n';
  sn_feature : nd_feature n = nd_feature n';
  sn_threshold : nd_threshold n = nd_threshold n';
  sn_impurity : nd_impurity n = nd_impurity n';
  sn_loss : nd_loss n = nd_loss n';
  sn_logw : nd_logw n = nd_logw n';
  sn_w_train : nd_w_train n = nd_w_train n';
  sn_w_valid : nd_w_valid n = nd_w_valid n';
  sn_is_cat : nd_is_cat n = nd_is_cat n'
}.

Record same_tree {A : arith} {P : Type} (t t' : tree A P) : Prop := {
  st_count : tr_node_count t = tr_node_count t';
  st_nodes : forall id n n', node_at t id n -> node_at t' id n' -> same_node n n';
  st_pred : forall id, id < tr_node_count t -> nth_error (tr_y_pred t) id = nth_error (tr_y_pred t') id
}.

(** The weights of both data sets, in any arithmetic. *)
Definition weights_of {A : arith} (times : nat -> nat) (weights : list (num A)) : Prop :=
  forall i w, nth_error weights i = Some w -> 1 <= times i /\ w = aofnat (times i).

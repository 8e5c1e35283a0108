(** * Model of the inspection methods of trees and forests *)

Require Import List Arith NArith ZArith.
Require Import Verif.Base Verif.Num Verif.M_Bitarray Verif.M_Utils Verif.M_Context Verif.M_Split
  Verif.M_Tree Verif.M_Grow Verif.M_Object Verif.M_Forest.
Import ListNotations.
Local Open Scope res_scope.

Section Trees.
Context {A : arith} {P Y : Type}.
Notation tobj := (tobj A P Y).

(** tree.py:100-114, [get_depth]. ([check_is_fitted] passes on every object.) *)
Definition get_depth (o : tobj) : res nat :=
  match ob_tree o with None => Err AttrErr | Some t => Ok (tr_max_depth t) end.

(** _tree.py:247-300, [get_nodes], as the list of the node records below [node_count]; the
    text columns derived from them are not modelled. *)
Definition get_nodes (o : tobj) : res (list (node A)) :=
  match ob_tree o with None => Err AttrErr | Some t => Ok (firstn (tr_node_count t) (tr_nodes t)) end.

(** tree.py:116-118, [get_actual_depth]; [max] of nothing is a ValueError. *)
Definition get_actual_depth (o : tobj) : res nat :=
  let* nodes := get_nodes o in
  match nodes with [] => Err ValueErr | _ => Ok (list_max (map nd_depth nodes)) end.

(** tree.py:120-135, [get_n_leaves]: neither None nor the jitclasses (_tree.py:64-93) have an
    attribute [n_leaves]. *)
Definition get_n_leaves (o : tobj) : res nat := Err AttrErr.

(** _tree.py:739-803, [sample_path_leaf]: one line per decision, without the text columns;
    [pl_left] is the beginning of the text of the decision. An index that is a sentinel
    (a feature is unsigned) is out of bounds in Python too. *)
Record path_line : Type := mkLine {
  pl_depth : nat;
  pl_feature : nat;
  pl_partition : option (list nat);
  pl_threshold : option nat;
  pl_left : bool;
  pl_is_cat : bool
}.

Fixpoint path_loop (fuel : nat) (t : tree A P) (xi : list nat) (n : node A) : res (list path_line) :=
  match fuel with
  | O => Err Fuel
  | S fuel' =>
      match nd_feature n with
      | None => Err IndexErr
      | Some f =>
          match nth_error xi f with
          | None => Err IndexErr
          | Some b =>
              let* line :=
                (if nd_is_cat n then
                   let* part := slice (tr_bp t) (nd_bp_start n) (nd_bp_end n) in
                   let* l := is_bin_in_partition b part in
                   Ok (mkLine (nd_depth n) f (Some part) None l true)
                 else let* th := idx_of (nd_threshold n) in
                      Ok (mkLine (nd_depth n) f None (Some th) (b <=? th) false)) in
              let* c := idx_of (if pl_left line then nd_left n else nd_right n) in
              let* n' := get (tr_nodes t) c in
              if nd_is_leaf n' then Ok [line]
              else let* rest := path_loop fuel' t xi n' in Ok (line :: rest)
          end
      end
  end.

Definition sample_path_leaf (t : tree A P) (xi : list nat) : res (list path_line) :=
  let* n := get (tr_nodes t) 0 in path_loop (tr_node_count t) t xi n.

(** tree.py:316-317 and _tree.py:731-736, [path_leaf], for classifiers; [X] has a list of
    bins for each sample. Regressors have no such method. *)
Definition tree_path_leaf (o : tobj) (X : list (list nat)) : res (list (list path_line)) :=
  match ob_tree o with None => Err AttrErr | Some t => mapM (sample_path_leaf t) X end.
End Trees.

Section Forests.
Context {A : arith} {L D : Type} {EC : encoding D} {P Y : Type}.
Notation fobj := (fobj A L EC P Y).

(** forest.py:655-656; [tree_idx] is not negative. *)
Definition forest_get_nodes (o : fobj) (tree_idx : nat) : res (list (node A)) :=
  match fo_trees o with
  | None => Err TypeErr
  | Some ts => match nth_error ts tree_idx with Some t => get_nodes t | None => Err IndexErr end
  end.

(** forest.py:658-662, [path_leaf]: there is no method [_bin_data]. [checked] tells if
    [_validate_X_predict] accepts the data. *)
Definition forest_path_leaf (o : fobj) (checked : res unit) : res (list (list path_line)) :=
  let* _ := checked in Err AttrErr.

(** forest.py:1679-1717, [ForestRegressor.predict_trees], which calls [_bin_data] too. *)
Definition predict_trees (o : fobj) (checked : res unit) : res (list (list (num A))) :=
  let* _ := checked in Err AttrErr.
End Forests.

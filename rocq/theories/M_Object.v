(** * Model of the estimator objects of wildwood/tree.py: fit, step, dirichlet, lighten,
      pickle *)

Require Import List Arith NArith.
Require Import Verif.Base Verif.Num Verif.M_Bitarray Verif.M_Utils
  Verif.M_Context Verif.M_Node Verif.M_Split Verif.M_Tree Verif.M_Grow.
Import ListNotations.
Local Open Scope res_scope.

(** [x == y] on numbers (false when one of them is NaN). *)
Definition num_eqb {A : arith} (x y : num A) : bool := (aleb x y && aleb y x)%bool.

Section Object.
Context {A : arith} {P Y : Type}.
Notation T := (num A).

(** A context object: the fields of M_Context, the partitions written while growing, and
    the two arrays of indices the constructor was given. *)
Record cobj : Type := mkCobj {
  cx_tc : tctx A Y;
  cx_parts : parts;
  cx_train : list nat;
  cx_valid : list nat;
  cx_dirichlet : T          (* classifiers only *)
}.

(** tree.py:57-100 and 198-239, the attributes that change after construction. [None] is
    Python's None, the value the constructor gives to the four last ones: [hasattr] is
    true of all of them. [ob_dirichlet] is used by classifiers only. *)
Record tobj : Type := mkTobj {
  ob_step : T;
  ob_dirichlet : T;
  ob_aggregation : bool;
  ob_tree : option (tree A P);
  ob_ctx : option cobj;
  ob_train : option (list nat);
  ob_valid : option (list nat)
}.

(** tree.py:57-100: a tree object before [fit]. *)
Definition new_tobj (step dirichlet : T) (aggregation : bool) : tobj :=
  mkTobj step dirichlet aggregation None None None None.

Definition tc_with_step (tc : tctx A Y) (step : T) : tctx A Y :=
  mkTctx _ (tc_fb tc) (tc_max_n_bins tc) (tc_y tc) (tc_weights tc) (tc_max_features tc)
    (tc_min_samples_split tc) (tc_min_samples_leaf tc) (tc_max_depth tc) (tc_aggregation tc)
    step (tc_is_categorical tc).

Definition tree_with_nodes (t : tree A P) (nodes : list (node A)) : tree A P :=
  mkTree (tr_max_depth t) (tr_node_count t) (tr_capacity t) nodes (tr_y_pred t)
    (tr_bp_capacity t) (tr_bp t) (tr_bp_end t).

(** tree.py:153-175, the [step] setter: the object after the call and the exception it
    raised, if any. The arrays of a fitted tree are written in place. *)
Definition set_step (val : T) (o : tobj) : tobj * option err :=
  if num_eqb (ob_step o) val then (o, None)
  else
    (* self._step = val *)
    let o1 := mkTobj val (ob_dirichlet o) (ob_aggregation o) (ob_tree o) (ob_ctx o) (ob_train o) (ob_valid o) in
    match ob_ctx o with
    | None => (o1, Some AttrErr)    (* None.step = val *)
    | Some c =>
        let c' := mkCobj (tc_with_step (cx_tc c) val) (cx_parts c) (cx_train c) (cx_valid c) (cx_dirichlet c) in
        let o2 := mkTobj val (ob_dirichlet o) (ob_aggregation o) (ob_tree o) (Some c') (ob_train o) (ob_valid o) in
        if tc_aggregation (cx_tc c) then
          match ob_tree o with
          | None => (o2, Some AttrErr)
          | Some t =>
              match compute_tree_weights (tr_nodes t) (tr_node_count t) val with
              | Ok nodes =>
                  (mkTobj val (ob_dirichlet o) (ob_aggregation o) (Some (tree_with_nodes t nodes))
                     (Some c') (ob_train o) (ob_valid o), None)
              | Err e => (o2, Some e)
              end
          end
        else (o2, None)
    end.

(** tree.py:177-195, [lighten]. numpy slices never fail. *)
Definition lighten_tree (t : tree A P) : tree A P :=
  mkTree (tr_max_depth t) (tr_node_count t) (tr_capacity t) (firstn (tr_node_count t) (tr_nodes t))
    (tr_y_pred t) (tr_bp_capacity t) (firstn (tr_bp_end t) (tr_bp t)) (tr_bp_end t).

Definition lighten (o : tobj) : tobj * option err :=
  match ob_tree o with
  | None => (mkTobj (ob_step o) (ob_dirichlet o) (ob_aggregation o) None None None None, Some AttrErr)
  | Some t => (mkTobj (ob_step o) (ob_dirichlet o) (ob_aggregation o) (Some (lighten_tree t)) None None None, None)
  end.

(** tree.py:302-311 and 425-434: the predictions use the attributes of the tree object. *)
Definition obj_predict (mix : T -> P -> P -> res P) (o : tobj) (fb : fba) : res (list P) :=
  match ob_tree o with
  | None => Err TypeErr
  | Some t => tree_predict mix t fb (ob_aggregation o) (ob_step o)
  end.

(** tree.py:137-141 and 436-437. *)
Definition obj_apply (o : tobj) (fb : fba) : res (list nat) :=
  match ob_tree o with None => Err TypeErr | Some t => tree_apply t fb end.

Definition obj_weighted_depth (o : tobj) (fb : fba) : res (list T) :=
  match ob_tree o with None => Err TypeErr | Some t => tree_weighted_depth t fb (ob_step o) end.

(** ** Pickle *)

(** [a[:] = v] in numpy: same shape, or one row that is broadcast. *)
Definition assign {X} (a v : list X) : res (list X) :=
  if length a =? length v then Ok v
  else match v with [x] => Ok (repeat x (length a)) | _ => Err ValueErr end.

(** tree.py:443-446 and 479-519: the dictionary of the attributes of a tree and the tree
    rebuilt from it. The constructor (_tree.py:140-170) allocates arrays of [capacity]
    zeros and sets [max_depth] to 0, which is not copied from the dictionary. *)
Definition unserialize_tree (pred0 : P) (t : tree A P) : res (tree A P) :=
  let* nodes := assign (repeat (@node0 A) (tr_capacity t)) (tr_nodes t) in
  let* y_pred := assign (repeat pred0 (tr_capacity t)) (tr_y_pred t) in
  let* bp := assign (repeat 0 (tr_bp_capacity t)) (tr_bp t) in
  Ok (mkTree 0 (tr_node_count t) (tr_capacity t) nodes y_pred (tr_bp_capacity t) bp (tr_bp_end t)).

(** tree.py:521-532: the bit array rebuilt from its attributes. [memN] is the content of
    the uninitialised memory of the constructor. *)
Definition unserialize_fba (memN : nat -> N) (fb : fba) : res fba :=
  let* fb0 := fba_init memN (fb_n_samples fb) (fb_max_values fb) in
  let* n_bits := assign (fb_n_bits fb0) (fb_n_bits fb) in
  let* offsets := assign (fb_offsets fb0) (fb_offsets fb) in
  let* n_values := assign (fb_n_values fb0) (fb_n_values fb) in
  let* bitarray := assign (fb_bitarray fb0) (fb_bitarray fb) in
  let* bitmasks := assign (fb_bitmasks fb0) (fb_bitmasks fb) in
  Ok (mkFba (fb_n_samples fb0) (fb_n_features fb) (fb_max_values fb0) n_bits offsets n_values
        bitmasks bitarray).

(** tree.py:448-472 and 520-615: a context. The constructor recomputes [max_n_bins],
    copies the indices into the partitions and allocates two buffers; the partitions and
    the buffers are then overwritten. *)
Definition unserialize_ctx (E : env A) (memN : nat -> N) (c : cobj) : res cobj :=
  let tc := cx_tc c in
  let* fb := unserialize_fba memN (tc_fb tc) in
  let* mb := init_max_n_bins fb in
  let ps := init_parts E fb (cx_train c) (cx_valid c) in
  let* pt := assign (p_train ps) (p_train (cx_parts c)) in
  let* pv := assign (p_valid ps) (p_valid (cx_parts c)) in
  let* lb := assign (p_left ps) (p_left (cx_parts c)) in
  let* rb := assign (p_right ps) (p_right (cx_parts c)) in
  Ok (mkCobj (mkTctx _ fb mb (tc_y tc) (tc_weights tc) (tc_max_features tc) (tc_min_samples_split tc)
                (tc_min_samples_leaf tc) (tc_max_depth tc) (tc_aggregation tc) (tc_step tc)
                (tc_is_categorical tc))
             (mkParts pt pv lb rb) (cx_train c) (cx_valid c) (cx_dirichlet c)).

(** tree.py:143-147, [__setstate__] after [__getstate__]. [unserialize] reads
    [val["n_features"]] and [val["features_bitarray"]]: a TypeError when the attribute is
    None. *)
Definition unpickle (E : env A) (memN : nat -> N) (pred0 : P) (o : tobj) : res tobj :=
  let* t := match ob_tree o with None => Err TypeErr | Some t => unserialize_tree pred0 t end in
  let* c := match ob_ctx o with None => Err TypeErr | Some c => unserialize_ctx E memN c end in
  Ok (mkTobj (ob_step o) (ob_dirichlet o) (ob_aggregation o) (Some t) (Some c) (ob_train o) (ob_valid o)).

End Object.
Arguments cobj A Y : clear implicits.
Arguments tobj A P Y : clear implicits.

(** tree.py:241-300 and 370-423, [fit] of an object whose parameters are [p] and
    [dirichlet]. *)
Definition obj_fit {A : arith} {E : env A} (tk : task A E) (dirichlet : num A) (p : @tree_params A)
  (fb : fba) (y : list (tk_Y tk)) (train valid : list nat) (weights : list (num A)) (s : rng E)
  : res (tobj A (tk_P tk) (tk_Y tk)) :=
  let* ' (tc, g) := tree_fit tk p fb y train valid weights s in
  Ok (mkTobj (tp_step p) dirichlet (tp_aggregation p) (Some (g_tree g))
        (Some (mkCobj tc (g_parts g) train valid dirichlet)) (Some train) (Some valid)).

(** [TreeClassifier(...).fit(...)]. *)
Definition clf_obj_fit {A : arith} (E : env A) (n_classes : nat) (dirichlet : num A) (crit : criterion)
  (st : cat_strategy) (p : @tree_params A) (fb : fba) (y : list nat) (train valid : list nat)
  (weights : list (num A)) (s : rng E) : res (tobj A (list (num A)) nat) :=
  obj_fit (clf_task E n_classes dirichlet crit st) dirichlet p fb y train valid weights s.

(** tree.py:323-334, the [dirichlet] setter. *)
Definition set_dirichlet {A : arith} (E : env A) (n_classes : nat) (val : num A)
  (o : tobj A (list (num A)) nat) : tobj A (list (num A)) nat * option err :=
  if num_eqb val (ob_dirichlet o) then (o, None)
  else
    match ob_ctx o with
    | None => (mkTobj (ob_step o) val (ob_aggregation o) (ob_tree o) None (ob_train o) (ob_valid o), Some AttrErr)
    | Some c =>
        let c' := mkCobj (cx_tc c) (cx_parts c) (cx_train c) (cx_valid c) val in
        let o2 := mkTobj (ob_step o) val (ob_aggregation o) (ob_tree o) (Some c') (ob_train o) (ob_valid o) in
        match ob_tree o with
        | None => (o2, Some TypeErr)
        | Some t =>
            match recompute_node_predictions E n_classes val (cx_tc c) (cx_parts c) t with
            | Ok t' => (mkTobj (ob_step o) val (ob_aggregation o) (Some t') (Some c') (ob_train o) (ob_valid o), None)
            | Err e => (o2, Some e)
            end
        end
    end.

Definition params_with_step {A : arith} (p : @tree_params A) (step : num A) : @tree_params A :=
  mkTP (tp_max_features p) (tp_min_samples_split p) (tp_min_samples_leaf p) (tp_max_depth p)
    (tp_aggregation p) step (tp_is_categorical p).

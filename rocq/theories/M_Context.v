(** * Model of wildwood/_tree_context.py and of what differs between classification
      and regression

    The classifier and regressor versions of the node, split and growing functions have
    the same text up to the label statistics. A [task] gathers these differences; each of
    its fields cites the lines of both versions. *)

Require Import List Arith NArith.
Require Import Verif.Base Verif.Num Verif.M_Bitarray Verif.M_Utils Verif.M_Impurity.
Import ListNotations.
Local Open Scope res_scope.

Section Context_.
Context {A : arith}.
Notation T := (num A).

(** _tree_context.py:26-120 and 251-296, the fields that do not change while a tree is
    grown. [Y] is the type of labels: class indices (the code stores them as float32 and
    reads them back through [uintp]) or reals. [tc_max_depth] is a machine integer
    (2^64 - 1 when the user gives None). *)
Record tctx (Y : Type) : Type := mkTctx {
  tc_fb : fba;
  tc_max_n_bins : nat;
  tc_y : list Y;
  tc_weights : list T;
  tc_max_features : nat;
  tc_min_samples_split : nat;
  tc_min_samples_leaf : nat;
  tc_max_depth : N;
  tc_aggregation : bool;
  tc_step : T;
  tc_is_categorical : list bool
}.
Arguments tc_fb {Y}. Arguments tc_max_n_bins {Y}. Arguments tc_y {Y}. Arguments tc_weights {Y}.
Arguments tc_max_features {Y}. Arguments tc_min_samples_split {Y}.
Arguments tc_min_samples_leaf {Y}. Arguments tc_max_depth {Y}. Arguments tc_aggregation {Y}.
Arguments tc_step {Y}. Arguments tc_is_categorical {Y}.

(** The fields of the tree context that are written while growing. *)
Record parts : Type := mkParts {
  p_train : list nat;      (* partition_train *)
  p_valid : list nat;      (* partition_valid *)
  p_left : list nat;       (* left_buffer *)
  p_right : list nat       (* right_buffer *)
}.

(** _tree_context.py:251-296, [init_tree_context]: [max_n_bins = max_values.max() + 1],
    copies of the indices, two buffers of [n_samples] cells of uninitialised memory. *)
Definition init_parts (E : env A) (fb : fba) (train valid : list nat) : parts :=
  mkParts train valid (map (mem E) (seq 0 (fb_n_samples fb))) (map (mem E) (seq 0 (fb_n_samples fb))).

Definition init_max_n_bins (fb : fba) : res nat :=
  match fb_max_values fb with
  | [] => Err ValueErr
  | mvs => Ok (S (N.to_nat (col_max mvs)))
  end.

(** The column of a feature in the bit array, as the code keeps it while it loops over
    samples: _node.py:630-633 and 836-839, _split.py:1217-1222. *)
Definition feature_column (fb : fba) (j : nat) : res (list N * N * nat * nat) :=
  let* n_values := get (fb_n_values fb) j in
  let* lo := get (fb_offsets fb) j in
  let* hi := get (fb_offsets fb) (S j) in
  let* bitarray_j := slice (fb_bitarray fb) lo hi in
  let* n_bits := get (fb_n_bits fb) j in
  let* bitmask := get (fb_bitmasks fb) j in
  Ok (bitarray_j, bitmask, n_values, n_bits).

Definition column_bin (col : list N * N * nat * nat) (i : nat) : res nat :=
  let '(b, m, nv, nb) := col in
  let* v := get_value_from_column i b m nv nb in
  Ok (N.to_nat v).

(** What differs between the two tasks. *)
Record task (E : env A) : Type := mkTask {
  tk_Y : Type;            (* labels *)
  tk_H : Type;            (* label statistics of the bins of a feature *)
  tk_P : Type;            (* prediction of a node *)
  tk_S : Type;            (* label statistics of one side of a split *)
  (* node_context.y_sum.fill(0.0), for one feature: _node.py:595 and 801-802 *)
  tk_hist0 : nat -> tk_H;
  (* y_sum[f, bin, label] += sample_weight: _node.py:656; regression 846 and 863-864 *)
  tk_hist_add : tk_H -> nat -> tk_Y -> T -> res tk_H;
  (* y_pred.fill(0.0): _node.py:596 and 803 *)
  tk_pred0 : tk_P;
  (* y_pred[label] += sample_weight: _node.py:643; regression 849 *)
  tk_pred_add : tk_P -> tk_Y -> T -> res tk_P;
  (* the normalisation at the end of the loop: _node.py:663-667; regression 868 *)
  tk_pred_end : tk_P -> T -> res tk_P;
  (* loss_valid: _node.py:681 and 882 *)
  tk_loss_add : T -> tk_P -> tk_Y -> T -> res T;
  (* y_sum_left = 0: _split.py:495 and 874-876 *)
  tk_stat0 : tk_S;
  (* y_sum_right = y_sum_in_bins.sum(axis=0): _split.py:498 and 875-877 *)
  tk_stat_total : tk_H -> tk_S;
  (* y_sum_left += y_sum_in_bins[bin]: _split.py:514-515 and 913-916 *)
  tk_stat_add : tk_S -> tk_H -> nat -> res tk_S;
  tk_stat_sub : tk_S -> tk_H -> nat -> res tk_S;
  (* apply_childs_impurity_function_*: _split.py:355-408 *)
  tk_impurity : T -> T -> tk_S -> tk_S -> res (T * T);
  (* orders in which the bins of a categorical feature are scanned:
     _split.py:681-726 and 887-889 *)
  tk_cat_orders : rng E -> tk_H -> list nat -> res (list (list nat) * rng E)
}.

(** *** Classification *)

Inductive criterion := Gini | Entropy.
Inductive cat_strategy := AllMods | BinaryMod | RandomMod.

Definition add_at (l : list T) (i : nat) (w : T) : res (list T) :=
  let* x := get l i in set l i (aadd x w).

(** Elementwise operation on two vectors of the same shape. *)
Fixpoint zipM {X} (f : X -> X -> X) (l m : list X) : res (list X) :=
  match l, m with
  | [], [] => Ok []
  | x :: l', y :: m' => let* r := zipM f l' m' in Ok (f x y :: r)
  | _, _ => Err ValueErr
  end.

(** Row [non_empty_bins_train[idx_sort]]: [l] indexed by a list of positions. *)
Definition take_at {X} (l : list X) (idx : list nat) : res (list X) := mapM (get l) idx.

(** _split.py:686-687: rows of [y_sum_in_bins] divided by their sums (array division:
    never raises). *)
Definition normalised_rows (h : list (list T)) (bins : list nat) : res (list (list T)) :=
  let* rows := mapM (get h) bins in
  Ok (map (fun row => let s := asum row in map (fun y => adiv y s) row) rows).

(** _split.py:690-692, 703-704, 716-717: the bins sorted by the proportion of class [k]. *)
Definition order_by_class (E : env A) (rows : list (list T)) (bins : list nat) (k : nat)
  : res (list nat) :=
  let* c := mapM (fun row => get row k) rows in
  take_at bins (argsort E c).

Definition clf_cat_orders (E : env A) (n_classes : nat) (st : cat_strategy) (s : rng E)
  (h : list (list T)) (bins : list nat) : res (list (list nat) * rng E) :=
  let* rows := normalised_rows h bins in
  match st with
  | AllMods =>
      let* os := mapM (order_by_class E rows bins) (seq 0 n_classes) in Ok (os, s)
  | BinaryMod => let* o := order_by_class E rows bins 1 in Ok ([o], s)
  | RandomMod =>
      let* ' (k, s') := randint E s n_classes in
      let* o := order_by_class E rows bins k in Ok ([o], s')
  end.

Definition clf_task (E : env A) (n_classes : nat) (dirichlet : T) (crit : criterion)
  (st : cat_strategy) : task E := {|
  tk_Y := nat; tk_H := list (list T); tk_P := list T; tk_S := list T;
  tk_hist0 := fun n_bins => repeat (repeat a0 n_classes) n_bins;
  tk_hist_add := fun h b k w => let* row := get h b in let* row' := add_at row k w in set h b row';
  tk_pred0 := repeat a0 n_classes;
  tk_pred_add := fun p k w => add_at p k w;
  tk_pred_end := fun p w =>
    foldM (fun p k => let* x := get p k in
                      let* v := divM (aadd x dirichlet)
                                     (aadd w (amul (aofnat n_classes) dirichlet)) in
                      set p k v) (seq 0 n_classes) p;
  tk_loss_add := fun loss p k w => let* q := get p k in Ok (asub loss (amul w (aln q)));
  tk_stat0 := repeat a0 n_classes;
  tk_stat_total := fun h => map (fun k => asum (map (fun row => nth k row a0) h)) (seq 0 n_classes);
  tk_stat_add := fun s h b => let* row := get h b in zipM aadd s row;
  tk_stat_sub := fun s h b => let* row := get h b in zipM asub s row;
  tk_impurity := fun wl wr sl sr =>
    match crit with
    | Gini => gini_childs n_classes wl wr sl sr
    | Entropy => entropy_childs n_classes wl wr sl sr
    end;
  tk_cat_orders := clf_cat_orders E n_classes st |}.

(** *** Regression *)

(** _split.py:888-889: argsort of the label sums of the non-empty bins. *)
Definition reg_cat_orders (E : env A) (s : rng E) (h : list T * list T) (bins : list nat)
  : res (list (list nat) * rng E) :=
  let* ys := mapM (get (fst h)) bins in
  let* o := take_at bins (argsort E ys) in
  Ok ([o], s).

Definition reg_task (E : env A) : task E := {|
  tk_Y := T; tk_H := list T * list T; tk_P := T; tk_S := T * T;
  tk_hist0 := fun n_bins => (repeat a0 n_bins, repeat a0 n_bins);
  tk_hist_add := fun h b y w =>
    let w_y := amul w y in
    let* s := add_at (fst h) b w_y in
    let* q := add_at (snd h) b (amul w_y y) in Ok (s, q);
  tk_pred0 := a0;
  tk_pred_add := fun p y w => Ok (aadd p (amul w y));
  tk_pred_end := fun p w => divM p w;
  tk_loss_add := fun loss p y w => Ok (aadd loss (amul (amul w (asub y p)) (asub y p)));
  tk_stat0 := (a0, a0);
  tk_stat_total := fun h => (asum (fst h), asum (snd h));
  tk_stat_add := fun s h b => let* x := get (fst h) b in let* q := get (snd h) b in
                              Ok (aadd (fst s) x, aadd (snd s) q);
  tk_stat_sub := fun s h b => let* x := get (fst h) b in let* q := get (snd h) b in
                              Ok (asub (fst s) x, asub (snd s) q);
  tk_impurity := fun wl wr sl sr => mse_childs wl wr (fst sl) (fst sr) (snd sl) (snd sr);
  tk_cat_orders := reg_cat_orders E |}.

End Context_.

Arguments tctx A Y : clear implicits.
Arguments task A E : clear implicits.
Arguments tc_fb {A Y}. Arguments tc_max_n_bins {A Y}. Arguments tc_y {A Y}. Arguments tc_weights {A Y}.
Arguments tc_max_features {A Y}. Arguments tc_min_samples_split {A Y}.
Arguments tc_min_samples_leaf {A Y}. Arguments tc_max_depth {A Y}. Arguments tc_aggregation {A Y}.
Arguments tc_step {A Y}. Arguments tc_is_categorical {A Y}.
Arguments tk_Y {A E}. Arguments tk_H {A E}. Arguments tk_P {A E}. Arguments tk_S {A E}.
Arguments tk_hist0 {A E}. Arguments tk_hist_add {A E}. Arguments tk_pred0 {A E}.
Arguments tk_pred_add {A E}. Arguments tk_pred_end {A E}. Arguments tk_loss_add {A E}.
Arguments tk_stat0 {A E}. Arguments tk_stat_total {A E}. Arguments tk_stat_add {A E}.
Arguments tk_stat_sub {A E}. Arguments tk_impurity {A E}. Arguments tk_cat_orders {A E}.

(** * What a valid call of a tree's fit is

    The hypotheses of the theorems about nodes, splits and grown trees. They are what
    ForestBase.fit guarantees (forest.py:252-470) when it calls the trees: features are
    packed, parameters are in their ranges, indices are row numbers. *)

Require Import List Arith NArith Permutation.
Require Import Verif.Base Verif.Num Verif.M_Bitarray Verif.P_Bitarray Verif.M_Utils
  Verif.M_Context Verif.M_Grow.
Import ListNotations.

(** The bin of sample [i] for feature [j], as the code reads it. *)
Definition bin_of (fb : fba) (i j : nat) : nat :=
  match get_value fb i j with Ok v => N.to_nat v | Err _ => 0 end.

(** A packed matrix of bins: consistent layout (what the constructor and the packing
    functions produce, see C01), and no bin above the maximum of its column. *)
Record packed (fb : fba) : Prop := {
  pk_layout : fba_wf fb;
  pk_max : forall i j v mv, i < fb_n_samples fb -> get_value fb i j = Ok v ->
    nth_error (fb_max_values fb) j = Some mv -> (v <= mv)%N
}.

(** The generator draws in range and argsort returns each position once. *)
Record good_env {A : arith} (E : env A) : Prop := {
  ge_draw : forall s n, 0 < n -> fst (draw E s n) < n;
  ge_sort : forall l, Permutation (argsort E l) (seq 0 (length l))
}.

Record valid_fit {A : arith} {Y : Type} (p : @tree_params A) (fb : fba) (y : list Y)
  (train valid : list nat) (weights : list (num A)) : Prop := {
  vf_packed : packed fb;
  vf_y : length y = fb_n_samples fb;
  vf_w : length weights = fb_n_samples fb;
  vf_train : forall i, In i train -> i < fb_n_samples fb;
  vf_valid : forall i, In i valid -> i < fb_n_samples fb;
  vf_train_len : length train <= fb_n_samples fb;
  vf_valid_len : length valid <= fb_n_samples fb;
  vf_mf : 1 <= tp_max_features p <= fb_n_features fb;
  vf_mss : 2 <= tp_min_samples_split p;
  vf_msl : 1 <= tp_min_samples_leaf p;
  vf_cat : length (tp_is_categorical p) = fb_n_features fb
}.

(** Labels are class indices; the "binary" strategy for categorical features needs two
    classes. *)
Record valid_labels (n_classes : nat) (st : cat_strategy) (cats : list bool) (y : list nat) : Prop := {
  vl_range : forall k, In k y -> k < n_classes;
  vl_binary : In true cats -> 1 <= n_classes /\ (st = BinaryMod -> 2 <= n_classes)
}.

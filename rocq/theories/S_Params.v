(** * Specification of hyper-parameters: accepted values, and what fit derives from them *)

Require Import String Bool List ZArith Reals.
Require Import Verif.Base Verif.Num Verif.M_Forest.
Import ListNotations.

(** The documented values of each parameter (docstrings of the classes, forest.py:914-1083
    and 1456-1586), in exact arithmetic. Python's booleans are integers. *)
Inductive int_value {A : arith} : pyval A -> Z -> Prop :=
| iv_int : forall z, int_value (PyInt z) z
| iv_true : int_value (PyBool true) 1
| iv_false : int_value (PyBool false) 0.

Definition int_from {A : arith} (lo : Z) (v : pyval A) : Prop := exists z, int_value v z /\ (lo <= z)%Z.

Definition is_one_of {A : arith} (l : list string) (v : pyval A) : Prop := exists s, v = PyStr s /\ In s l.

Definition valid_param (crits losses : list string) (p : param) (v : pyval R_arith) : Prop :=
  match p with
  | P_n_estimators => int_from 1 v
  | P_criterion => is_one_of crits v
  | P_loss => is_one_of losses v
  | P_step => exists x : R, v = PyFloat x /\ (0 < x)%R
  | P_aggregation | P_verbose => exists b, v = PyBool b
  | P_max_depth => v = PyNone \/ int_from 2 v
  | P_min_samples_split => int_from 2 v
  | P_min_samples_leaf => int_from 1 v
  | P_max_bins => int_from 3 v
  | P_max_features => v = PyNone \/ is_one_of ["auto"; "sqrt"; "log2"]%string v \/ int_from 1 v \/
                      exists x : R, v = PyFloat x /\ (0 < x <= 1)%R
  | P_n_jobs => exists z, int_value v z /\ (z = -1 \/ 1 <= z)%Z
  | P_random_state => v = PyNone \/ int_from 0 v
  | P_dirichlet => exists x : R, v = PyFloat x /\ (0 <= x)%R
  | P_class_weight => v = PyNone \/ v = PyStr "balanced"
  | P_multiclass => is_one_of ["multinomial"; "ovr"]%string v
  | P_cat_split_strategy => is_one_of ["binary"; "all"; "random"]%string v
  end.

(** Parameters that cannot change once the forest is fitted. *)
Definition frozen (p : param) : bool :=
  match p with P_n_estimators | P_random_state | P_multiclass | P_cat_split_strategy => true | _ => false end.

(** Python's equality of values, in which True is 1. *)
Definition py_eq {A : arith} (v w : pyval A) : Prop := v = w \/ exists z, int_value v z /\ int_value w z.

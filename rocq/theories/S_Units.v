(** * Specification: changes of unit of the labels of a regression *)

Require Import List Arith Reals.
Require Import Verif.Base Verif.Num Verif.M_Utils.
Import ListNotations.

(** The labels in another unit: degrees Celsius and Fahrenheit, say. *)
Definition new_unit (a b : R) (y : R) : R := (a * y + b)%R.

(** [argsort] only looks at the results of comparisons. *)
Definition comparison_sort (E : env R_arith) : Prop :=
  forall l l' : list R, length l = length l' ->
  (forall i j, i < length l -> j < length l -> (nth i l 0 < nth j l 0 <-> nth i l' 0 < nth j l' 0)%R) ->
  argsort E l = argsort E l'.

(** A result in the other unit. *)
Definition in_new_unit (a b : R) (r : res (list R)) : res (list R) :=
  match r with Ok p => Ok (map (new_unit a b) p) | Err e => Err e end.

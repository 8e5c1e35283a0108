(** * Specification: textbook impurities

    Nothing here depends on the model. A classification node is described by the list of
    total weights of its classes, a regression node by its list of (weight, label) pairs. *)

Require Import List Reals.
Import ListNotations.
Local Open Scope R_scope.
Local Open Scope list_scope.

(** Sum of a list of reals. *)
Fixpoint Rsum (l : list R) : R := match l with [] => 0 | x :: t => x + Rsum t end.

(** Square. *)
Definition sq (x : R) : R := x * x.

(** Frequency of a class, Gini index [sum p (1 - p)], entropy [- sum p ln p] with
    [0 ln 0 = 0]. *)
Definition freq (y : list R) (x : R) : R := x / Rsum y.
Definition gini (y : list R) : R := Rsum (map (fun x => freq y x * (1 - freq y x)) y).
Definition xlogx (x : R) : R := if Rlt_dec 0 x then x * ln x else 0.
Definition entropy (y : list R) : R := - Rsum (map (fun x => xlogx (freq y x)) y).

(** Weights are not negative. *)
Definition nonneg (y : list R) : Prop := forall x, In x y -> 0 <= x.

(** At most one class has positive weight. *)
Definition pure (y : list R) : Prop :=
  forall j k, 0 < nth j y 0 -> 0 < nth k y 0 -> j = k.

(** Total weight, weighted sum of labels and of their squares, mean, variance. *)
Definition wtot (l : list (R * R)) : R := Rsum (map fst l).
Definition wysum (l : list (R * R)) : R := Rsum (map (fun p => fst p * snd p) l).
Definition wysq (l : list (R * R)) : R := Rsum (map (fun p => fst p * snd p * snd p) l).
Definition wmean (l : list (R * R)) : R := wysum l / wtot l.
Definition variance (l : list (R * R)) : R :=
  Rsum (map (fun p => fst p * sq (snd p - wmean l)) l) / wtot l.

(** Class weights of the union of two nodes. *)
Fixpoint vadd (y z : list R) : list R :=
  match y, z with x :: y', u :: z' => (x + u) :: vadd y' z' | _, _ => [] end.

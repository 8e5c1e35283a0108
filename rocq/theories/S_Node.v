(** * Specification: the statistics of a set of samples *)

Require Import List Arith NArith.
Require Import Verif.Base Verif.Num Verif.M_Bitarray Verif.S_Fit.
Import ListNotations.

Section Stats.
Context {A : arith} (fb : fba) (weights : list (num A)).
Notation T := (num A).

(** The samples of [l] whose bin for feature [j] is [b]. *)
Definition samples_in (l : list nat) (j b : nat) : list nat :=
  filter (fun i => bin_of fb i j =? b) l.

(** Weight of a sample; total weight of a list of samples (summed in the order of the list). *)
Definition weight (i : nat) : T := nth i weights a0.
Definition total_weight (l : list nat) : T := asum (map weight l).

(** Classification: the samples of [l] of class [k]. *)
Definition of_class (y : list nat) (k : nat) (l : list nat) : list nat :=
  filter (fun i => nth i y 0 =? k) l.

(** Smoothed frequency of class [k] among the samples [l]. *)
Definition smoothed_freq (n_classes : nat) (dirichlet : T) (y : list nat) (l : list nat) (k : nat) : T :=
  adiv (aadd (total_weight (of_class y k l)) dirichlet)
       (aadd (total_weight l) (amul (aofnat n_classes) dirichlet)).

(** Weighted log loss of the probabilities [p] on the samples [l]. *)
Definition log_loss (y : list nat) (p : nat -> T) (l : list nat) : T :=
  fold_left (fun loss i => asub loss (amul (weight i) (aln (p (nth i y 0))))) l a0.

(** Regression: weighted sums of labels and squared labels, squared loss of a constant. *)
Definition label_sum (y : list T) (l : list nat) : T :=
  asum (map (fun i => amul (weight i) (nth i y a0)) l).
Definition label_sq_sum (y : list T) (l : list nat) : T :=
  asum (map (fun i => amul (amul (weight i) (nth i y a0)) (nth i y a0)) l).
Definition sq_loss (y : list T) (m : T) (l : list nat) : T :=
  fold_left (fun loss i => aadd loss (amul (amul (weight i) (asub (nth i y a0) m)) (asub (nth i y a0) m))) l a0.

End Stats.

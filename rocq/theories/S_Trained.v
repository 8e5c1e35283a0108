(** * Specification: what the trees of a forest are trained on *)

Require Import List Arith NArith Bool.
Require Import Verif.Base Verif.Num Verif.M_Bitarray Verif.M_Utils Verif.M_Context Verif.M_Tree Verif.S_Fit Verif.S_Node Verif.S_Tree Verif.S_Prune.
Import ListNotations.
Local Open Scope nat_scope.

(** [codes] are the positions of the labels [y] among the classes. *)
Definition positions_of {L : Type} (classes y : list L) (codes : list nat) : Prop :=
  length codes = length y /\ forall i, i < length y -> nth_error classes (nth i codes 0) = nth_error y i.

(** [codes] are 1 for the samples of class number [k] and 0 for all others. *)
Definition one_versus_rest {L : Type} (classes y : list L) (k : nat) (codes : list nat) : Prop :=
  length codes = length y /\ exists c, nth_error classes k = Some c /\
  forall i, i < length y ->
    (nth_error y i = Some c /\ nth i codes 0 = 1) \/ (nth_error y i <> Some c /\ nth i codes 0 = 0).

(** How many times [i] is drawn; the rows drawn and those left out, in increasing order. *)
Definition drawn (draws : list nat) (i : nat) : nat := count_occ Nat.eq_dec draws i.
Definition in_bag (draws : list nat) (n : nat) : list nat := filter (fun i => 1 <=? drawn draws i) (seq 0 n).
Definition out_of_bag (draws : list nat) (n : nat) : list nat := filter (fun i => drawn draws i =? 0) (seq 0 n).

(** [n] draws with replacement among [n] rows that leave some row out. *)
Definition bootstrap (draws : list nat) (n : nat) : Prop :=
  length draws = n /\ (forall i, In i draws -> i < n) /\ in_bag draws n <> [] /\ out_of_bag draws n <> [].

Section Weights.
Context {A : arith}.
Notation T := (num A).

(** The weight the user gives to a row: one if they give no weights. *)
Definition given_weight (sw : option (list T)) (i : nat) : T := match sw with None => a1 | Some l => nth i l a0 end.

(** [class_weight="balanced"]: number of rows, divided by the number of distinct codes times
    the number of rows with the code of row [i]. *)
Definition balancing (codes : list nat) (i : nat) : T :=
  adiv (aofnat (length codes))
       (amul (aofnat (length (nodup Nat.eq_dec codes))) (aofnat (count_occ Nat.eq_dec codes (nth i codes 0)))).

(** The weight of row [i] before the bootstrap, and in the tree: the rows that are drawn count
    as many times as they are drawn. *)
Definition row_weight (balance : bool) (sw : option (list T)) (codes : list nat) (i : nat) : T :=
  if balance then amul (given_weight sw i) (balancing codes i) else given_weight sw i.
Definition tree_weight (draws : list nat) (w : nat -> T) (i : nat) : T :=
  if drawn draws i =? 0 then w i else amul (w i) (aofnat (drawn draws i)).

(** The nodes of a tree hold the statistics of the rows that pass through them: those of
    [draws] to train, and the others to validate. [say] is what a node predicts, [loss] its
    loss on the rows left out. *)
Definition describes {P : Type} (tree : M_Tree.tree A P) (fb : fba) (n : nat) (draws : list nat)
  (w : nat -> T) (aggregation : bool)
  (say : P -> list nat -> Prop) (loss : P -> list nat -> T) : Prop :=
  forall id nd, node_at tree id nd ->
  exists f pred, (forall i, f i = true <-> passes tree (bin_of fb i) id) /\
    let here := filter f (in_bag draws n) in let hereV := filter f (out_of_bag draws n) in
    nd_n_train nd = length here /\ nd_n_valid nd = length hereV /\
    nd_w_train nd = asum (map w here) /\
    nd_w_valid nd = (if aggregation then asum (map w hereV) else a0) /\
    nth_error (tr_y_pred tree) id = Some pred /\ say pred here /\
    nd_loss nd = (if aggregation then loss pred hereV else a0).

(** Classification: smoothed frequencies of the [K] classes, and the logarithmic loss. *)
Definition frequencies (w : nat -> T) (codes : list nat) (K : nat) (dirichlet : T) (pred : list T) (here : list nat) : Prop :=
  length pred = K /\ forall k, k < K ->
  nth_error pred k = Some (adiv (aadd (asum (map w (filter (fun i => nth i codes 0 =? k) here))) dirichlet)
                                (aadd (asum (map w here)) (amul (aofnat K) dirichlet))).
Definition logarithmic_loss (w : nat -> T) (codes : list nat) (pred : list T) (here : list nat) : T :=
  fold_left (fun s i => asub s (amul (w i) (aln (nth (nth i codes 0) pred a0)))) here a0.

(** Regression: the weighted mean, and the squared loss. *)
Definition weighted_mean (w : nat -> T) (y : list T) (pred : T) (here : list nat) : Prop :=
  pred = adiv (asum (map (fun i => amul (w i) (nth i y a0)) here)) (asum (map w here)).
Definition squared_loss (w : nat -> T) (y : list T) (pred : T) (here : list nat) : T :=
  fold_left (fun s i => aadd s (amul (amul (w i) (asub (nth i y a0) pred)) (asub (nth i y a0) pred))) here a0.

End Weights.

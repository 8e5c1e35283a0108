(** * Specification: the prunings of a tree and their weights *)

Require Import List Arith NArith Reals.
Require Import Verif.Base Verif.Num Verif.M_Bitarray Verif.M_Context Verif.M_Split Verif.M_Tree
  Verif.S_Fit Verif.S_Impurity Verif.S_Node Verif.S_Tree.
Import ListNotations.
Local Open Scope nat_scope.

(** A pruning of a tree: nodes are removed below some of the nodes, which become leaves. *)
Inductive pruning : Type :=
| Cut (id : nat)                      (* node [id] is a leaf of the pruning *)
| Keep (id : nat) (l r : pruning).    (* node [id] keeps its two children *)

Fixpoint kept_nodes (p : pruning) : list nat :=
  match p with Cut id => [id] | Keep id l r => id :: kept_nodes l ++ kept_nodes r end.
Fixpoint pruned_leaves (p : pruning) : list nat :=
  match p with Cut id => [id] | Keep _ l r => pruned_leaves l ++ pruned_leaves r end.

Section Prunings.
Context {A : arith} {P : Type} (t : tree A P).

(** The prunings of the sub-tree rooted at a node. *)
Inductive is_pruning : nat -> pruning -> Prop :=
| IP_cut : forall id n, node_at t id n -> is_pruning id (Cut id)
| IP_keep : forall id n l r pl pr, node_at t id n -> nd_is_leaf n = false ->
    nd_left n = Some l -> nd_right n = Some r ->
    is_pruning l pl -> is_pruning r pr -> is_pruning id (Keep id pl pr).

(** [L] lists them all, each once. *)
Definition all_prunings (id : nat) (L : list pruning) : Prop :=
  NoDup L /\ forall p, In p L <-> is_pruning id p.

(** The leaf of a pruning in which a row of bins falls. *)
Inductive pruned_leaf (row : nat -> nat) : pruning -> nat -> Prop :=
| PL_cut : forall id, pruned_leaf row (Cut id) id
| PL_keep : forall id n f left pl pr leaf, node_at t id n -> nd_feature n = Some f -> left_at t n (row f) left ->
    pruned_leaf row (if left then pl else pr) leaf -> pruned_leaf row (Keep id pl pr) leaf.

(** A node that has children. *)
Definition is_inner (id : nat) : bool :=
  match nth_error (tr_nodes t) id with Some n => negb (nd_is_leaf n) | None => false end.

(** The samples of a data set that pass through a node on their way to their leaf. *)
Definition passes (row : nat -> nat) (id : nat) : Prop := exists path, route t row 0 path /\ In id path.

End Prunings.

Section Weights.
Context {P : Type} (t : tree R_arith P) (step : R).

(** The prior probability of a pruning: a fair coin is tossed at every node that could be
    split. *)
Definition prior (p : pruning) : R := ((/ 2) ^ length (filter (is_inner t) (kept_nodes p)))%R.

(** The validation loss of a pruning: its leaves' losses. *)
Definition loss_at (id : nat) : R :=
  match nth_error (tr_nodes t) id with Some n => nd_loss n | None => 0%R end.
Definition pruning_loss (p : pruning) : R := Rsum (map loss_at (pruned_leaves p)).

Definition pruning_weight (p : pruning) : R := (prior p * exp (- step * pruning_loss p))%R.

(** The average of a value over a list of prunings. *)
Definition pruning_average (L : list pruning) (value : pruning -> R) : R :=
  (Rsum (map (fun p => pruning_weight p * value p) L) / Rsum (map pruning_weight L))%R.
End Weights.

(** What is stored at a node: the probability of class [k], the value, the depth. *)
Definition class_prob (t : tree R_arith (list R)) (k id : nat) : R :=
  match nth_error (tr_y_pred t) id with Some v => nth k v 0%R | None => 0%R end.
Definition value_at (t : tree R_arith R) (id : nat) : R :=
  match nth_error (tr_y_pred t) id with Some v => v | None => 0%R end.
Definition depth_at {P} (t : tree R_arith P) (id : nat) : R :=
  match nth_error (tr_nodes t) id with Some n => INR (nd_depth n) | None => 0%R end.

(** * Specification: calls of fit, the tree encoded by the nodes array, routes *)

Require Import List Arith NArith.
Require Import Verif.Base Verif.Num Verif.M_Bitarray Verif.M_Utils Verif.M_Impurity Verif.M_Context
  Verif.M_Split Verif.M_Tree Verif.M_Grow Verif.S_Fit.
Import ListNotations.

(** ** Valid calls of the fit method of a tree, for both kinds of trees *)
Inductive valid_call {A : arith} {E : env A} : forall tk : task A E, @tree_params A -> fba -> list (tk_Y tk) ->
  list nat -> list nat -> list (num A) -> Prop :=
| VC_classifier : forall K dirichlet crit st p fb y train valid weights,
    good_env E -> valid_fit p fb y train valid weights ->
    valid_labels K st (tp_is_categorical p) y ->
    valid_call (clf_task E K dirichlet crit st) p fb y train valid weights
| VC_regressor : forall p fb y train valid weights,
    good_env E -> valid_fit p fb y train valid weights ->
    valid_call (reg_task E) p fb y train valid weights.

Section Nodes.
Context {A : arith} {P : Type}.

(** [n] is node number [id] of the tree. *)
Definition node_at (t : tree A P) (id : nat) (n : node A) : Prop :=
  id < tr_node_count t /\ nth_error (tr_nodes t) id = Some n.

Definition child_of (n : node A) (c : nat) : Prop :=
  nd_is_leaf n = false /\ (nd_left n = Some c \/ nd_right n = Some c).

Definition leaf_count (t : tree A P) : nat :=
  length (filter nd_is_leaf (firstn (tr_node_count t) (tr_nodes t))).

(** ** Well-formed trees *)
Record well_formed (t : tree A P) : Prop := {
  (* every cell below the count is a node that knows its number *)
  wf_nodes : forall id, id < tr_node_count t -> exists n, node_at t id n /\ nd_id n = id;
  (* node 0 is the root *)
  wf_root : exists n, node_at t 0 n /\ nd_parent n = None /\ nd_depth n = 0;
  (* every other node is a child of the node in its parent field *)
  wf_parent : forall id n, node_at t id n -> id <> 0 -> exists q pn,
    nd_parent n = Some q /\ node_at t q pn /\ child_of pn id /\ q < id /\ nd_depth n = nd_depth pn + 1;
  (* and of no other node *)
  wf_unique : forall q pn q' pn' c, node_at t q pn -> child_of pn c -> node_at t q' pn' -> child_of pn' c -> q = q';
  (* a node that is not a leaf has two different children, which name it as their parent *)
  wf_children : forall id n, node_at t id n -> nd_is_leaf n = false -> exists l r ln rn,
    nd_left n = Some l /\ nd_right n = Some r /\ l <> r /\ id < l /\ id < r /\
    node_at t l ln /\ node_at t r rn /\ nd_parent ln = Some id /\ nd_parent rn = Some id;
  (* a leaf has none *)
  wf_leaf : forall id n, node_at t id n -> nd_is_leaf n = true -> nd_left n = None /\ nd_right n = None;
  wf_count : tr_node_count t + 1 = 2 * leaf_count t
}.

(** ** The route of a row of bins *)

(** A sample whose bin for the feature of [n] is [b] goes left at [n]. *)
Definition left_at (t : tree A P) (n : node A) (b : nat) (left : bool) : Prop :=
  if nd_is_cat n then exists set, slice (tr_bp t) (nd_bp_start n) (nd_bp_end n) = Ok set /\ (left = true <-> In b set)
  else exists th, nd_threshold n = Some th /\ (left = true <-> b <= th).

(** [route t row id path]: the row goes from node [id] down to a leaf along [path]. *)
Inductive route (t : tree A P) (row : nat -> nat) : nat -> list nat -> Prop :=
| route_leaf : forall id n, node_at t id n -> nd_is_leaf n = true -> route t row id [id]
| route_down : forall id n f left c path, node_at t id n -> nd_is_leaf n = false ->
    nd_feature n = Some f -> left_at t n (row f) left ->
    (if left then nd_left n else nd_right n) = Some c -> route t row c path ->
    route t row id (id :: path).

(** The walk up along the ancestors [ids], nearest first: at each of them the value of the
    node is mixed into the current value. *)
Definition mix_up {V} (t : tree A P) (step : num A) (val : nat -> node A -> res V)
  (mix : num A -> V -> V -> res V) (ids : list nat) (v : V) : res V :=
  foldM (fun v id => let* n := get (tr_nodes t) id in
                     let* u := val id n in
                     let* alpha := node_alpha step n in
                     mix alpha u v) ids v.

(** The training samples of a list that end in leaf [id]. *)
Definition reaching (t : tree A P) (fb : fba) (id : nat) (l : list nat) : list nat :=
  filter (fun i => match find_leaf t fb i with Ok leaf => leaf =? id | Err _ => false end) l.

End Nodes.

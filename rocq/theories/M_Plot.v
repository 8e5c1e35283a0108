(** * Model of the layout of the drawing of a tree: plot.py *)

Require Import List Arith NArith ZArith Bool.
Require Import Verif.Base Verif.Num Verif.M_Utils Verif.M_Tree Verif.M_Object Verif.M_Forest Verif.M_Inspect.
Import ListNotations.
Local Open Scope res_scope.

Section Plot.
(** [B] is the arithmetic of the coordinates, which are doubles; [A] is that of the tree. *)
Context {A : arith} (B : arith).
Notation T := (num B).

(** [0.5 ** k]. *)
Fixpoint half_pow (k : nat) : T := match k with O => a1 | S k' => amul ahalf (half_pow k') end.

(** The value of the column [parent]: TREE_UNDEFINED is -2 (_tree.py:37). *)
Definition parent_key (n : node A) : Z := match nd_parent n with Some q => Z.of_nat q | None => -2%Z end.

(** The order of [sort_values(by=["depth", "parent", "node_id"])], plot.py:12. *)
Definition row_leb (a b : nat * node A) : bool :=
  let m := snd a in let n := snd b in
  if nd_depth m =? nd_depth n
  then if (parent_key m =? parent_key n)%Z then nd_id m <=? nd_id n else (parent_key m <? parent_key n)%Z
  else nd_depth m <? nd_depth n.

(** plot.py:12, as an insertion sort. The rows keep their labels, which are their positions
    in the result of get_nodes. *)
Fixpoint insert_row (x : nat * node A) (l : list (nat * node A)) : list (nat * node A) :=
  match l with
  | [] => [x]
  | y :: l' => if row_leb x y then x :: l else y :: insert_row x l'
  end.
Fixpoint sort_rows (l : list (nat * node A)) : list (nat * node A) :=
  match l with [] => [] | x :: l' => insert_row x (sort_rows l') end.

(** The columns added to the table, listed by label: plot.py:17-24. *)
Record layout : Type := mkLayout { ly_x : list T; ly_y : list Z; ly_x0 : list T; ly_y0 : list Z }.

(** [df.at[label, column]]; a label that does not exist is a KeyError, written IndexErr. *)
Definition at_label {X} (l : list X) (i : nat) : res X :=
  match nth_error l i with Some x => Ok x | None => Err IndexErr end.

(** One turn of the loop, plot.py:25-37. *)
Definition place_node (nodes : list (node A)) (s : layout) (index : nat) : res layout :=
  let* n := at_label nodes index in
  let* parent := match nd_parent n with Some q => Ok q | None => Err IndexErr end in
  let depth := nd_depth n in
  let* pn := at_label nodes parent in
  let* x_parent := at_label (ly_x s) parent in
  let left := match nd_left pn with Some l => l =? index | None => false end in
  let x := if left then asub x_parent (half_pow (depth + 1)) else aadd x_parent (half_pow (depth + 1)) in
  let* xs := set (ly_x s) index x in
  let* x0s := set (ly_x0 s) index x_parent in
  let* y_parent := at_label (ly_y s) parent in
  let* y0s := set (ly_y0 s) index y_parent in
  Ok (mkLayout xs (ly_y s) x0s y0s).

(** plot.py:10-49, [_compute_display_tree], from the table of the nodes; [max_depth] is its
    argument. A table without rows raises at [x[0] = 0.5]. *)
Definition display (max_depth : option Z) (nodes : list (node A)) : res layout :=
  let n := length nodes in
  match sort_rows (combine (seq 0 n) nodes) with
  | [] => Err IndexErr
  | (l0, _) :: rest =>
      let md := match max_depth with Some d => d | None => Z.of_nat (list_max (map nd_depth nodes)) end in
      let* xs := set (repeat a0 n) l0 ahalf in
      let ys := map (fun m => (md - Z.of_nat (nd_depth m))%Z) nodes in
      foldM (place_node nodes) (map (fun r => nd_id (snd r)) rest) (mkLayout xs ys xs ys)
  end.

(** plot.py:52-81, the coordinates drawn by [plot_tree]: its argument [max_depth] is not used. *)
Definition plot_layout {L D : Type} {EC : encoding D} {P Y : Type} (o : fobj A L EC P Y) (tree_idx : nat) (max_depth : option Z) : res layout :=
  let* nodes := forest_get_nodes o tree_idx in display None nodes.

End Plot.
Arguments layout B : clear implicits. Arguments mkLayout {B}. Arguments ly_x {B}. Arguments ly_y {B}. Arguments ly_x0 {B}. Arguments ly_y0 {B}.

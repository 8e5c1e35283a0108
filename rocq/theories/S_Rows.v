(** * Specification: rows of a table

    What it means to take some rows of a table, in any order and possibly several times:
    [X[rows]] for an array, [X.iloc[rows]] for a data frame. *)

Require Import List Arith Bool.
Require Import Verif.Base Verif.Num Verif.M_Encoder Verif.S_Encoder Verif.M_EncoderForest.
Import ListNotations.

(** [l'] is [l[rows]]. *)
Definition picked {X : Type} (rows : list nat) (l l' : list X) : Prop :=
  Forall2 (fun i x => nth_error l i = Some x) rows l'.

Section Rows.
Context {A : arith} (V : values A) {NM : Type}.

(** A column keeps its name, its dtype and its declared categories. *)
Definition picked_column (rows : list nat) (p p' : NM * column V) : Prop :=
  fst p' = fst p /\ s_kind V (snd p') = s_kind V (snd p) /\ s_cats V (snd p') = s_cats V (snd p) /\
  picked rows (s_cells V (snd p)) (s_cells V (snd p')).

(** [X'] is [X[rows]] or [X.iloc[rows]]. *)
Definition picked_table (rows : list nat) (X X' : xdata V NM) : Prop :=
  match X, X' with
  | XFrame _ _ n cols, XFrame _ _ n' cols' => n' = length rows /\ Forall2 (picked_column rows) cols cols'
  | XArray _ _ k n cols, XArray _ _ k' n' cols' => k' = k /\ n' = length rows /\ Forall2 (picked rows) cols cols'
  | _, _ => False
  end.

(** Row [i] of [X] and row [i'] of [X'] are the same. *)
Definition same_row (X : xdata V NM) (i : nat) (X' : xdata V NM) (i' : nat) : Prop :=
  forall j, cell_at V X i j = cell_at V X' i' j.

(** A method with one result per row. The result of a row depends on this row only: in two
    tables whose columns are read in the same way (see [reading] in S_Encoder.v), rows with
    the same cells have the same result, and the results for [X[rows]], which is accepted if
    [X] is, are those for [X] at [rows]. *)
Definition by_row {Q : Type} (method : table V NM -> res (list Q)) : Prop :=
  (forall X out, method X = Ok out -> length out = fst (shape V NM (tb_X V NM X))) /\
  (forall X X' out out' i i', method X = Ok out -> method X' = Ok out' ->
     reading V (tb_X V NM X) = reading V (tb_X V NM X') ->
     i < fst (shape V NM (tb_X V NM X)) -> same_row (tb_X V NM X) i (tb_X V NM X') i' ->
     nth_error out i = nth_error out' i') /\
  (forall X X' rows out, method X = Ok out -> picked_table rows (tb_X V NM X) (tb_X V NM X') ->
     exists out', method X' = Ok out' /\ picked rows out out').

(** The same for a method with one result per tree and per row. *)
Definition by_tree_and_row {Q : Type} (method : table V NM -> res (list (list Q))) : Prop :=
  (forall X out l, method X = Ok out -> In l out -> length l = fst (shape V NM (tb_X V NM X))) /\
  (forall X X' out out' i i', method X = Ok out -> method X' = Ok out' ->
     reading V (tb_X V NM X) = reading V (tb_X V NM X') ->
     i < fst (shape V NM (tb_X V NM X)) -> same_row (tb_X V NM X) i (tb_X V NM X') i' ->
     Forall2 (fun l l' => nth_error l i = nth_error l' i') out out') /\
  (forall X X' rows out, method X = Ok out -> picked_table rows (tb_X V NM X) (tb_X V NM X') ->
     exists out', method X' = Ok out' /\ Forall2 (picked rows) out out').
End Rows.

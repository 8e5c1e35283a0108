(** * Specification: increasing transformations of the columns of a table

    What it means that a table is another one whose numbers were replaced, column by column,
    by their images by increasing functions, for instance logarithms. *)

Require Import List Arith Bool Reals.
Require Import Verif.Base Verif.Num Verif.M_Encoder Verif.S_Encoder Verif.Cells Verif.M_EncoderForest.
Import ListNotations.

(** Strictly increasing on the numbers that satisfy [P]. *)
Definition increasing_on (P : R -> Prop) (g : R -> R) : Prop :=
  forall x y, P x -> P y -> (x < y)%R -> (g x < g y)%R.

(** Missing values and strings do not change. *)
Definition recode (g : R -> R) (c : cell R_arith) : cell R_arith :=
  match c with CNum x => CNum (g x : num R_arith) | CNone => CNone | CStr s => CStr s end.

Section Monotone.
Context (r32 : R -> R) (NM : Type) (cap : R).
Notation V := (exact_values r32).

(** The number [x] is in the column, or is one of its declared categories. *)
Definition number_of (cells : list (cell R_arith)) (cats : option (list (cell R_arith))) (x : R) : Prop :=
  In (CNum (x : num R_arith)) cells \/ exists l, cats = Some l /\ In (CNum (x : num R_arith)) l.

(** A function for a column: strictly increasing on its numbers, which are not above the cap
    (ALMOST_INF in the code) before and after. *)
Definition good_recoding (g : R -> R) (cells : list (cell R_arith)) (cats : option (list (cell R_arith))) : Prop :=
  increasing_on (number_of cells cats) g /\
  forall x, number_of cells cats x -> (x <= cap)%R /\ (g x <= cap)%R.

(** A column of a data frame and its image; its dtype may change, for instance from integers
    to floats, but not from numbers to something else. *)
Definition recoded_series (p p' : NM * column V) : Prop :=
  fst p' = fst p /\ in_bOSU (s_kind V (snd p')) = in_bOSU (s_kind V (snd p)) /\
  in_uif (s_kind V (snd p')) = in_uif (s_kind V (snd p)) /\
  exists g, good_recoding g (s_cells V (snd p)) (s_cats V (snd p)) /\
    s_cells V (snd p') = map (recode g) (s_cells V (snd p)) /\
    s_cats V (snd p') = option_map (map (recode g)) (s_cats V (snd p)).

(** A column of an array and its image. *)
Definition recoded_cells (l l' : list (cell R_arith)) : Prop :=
  exists g, good_recoding g l None /\ l' = map (recode g) l.

(** Arrays are arrays of numbers; integers may become floats. *)
Definition recoded (X X' : xdata V NM) : Prop :=
  match X, X' with
  | XFrame _ _ n cols, XFrame _ _ n' cols' => n' = n /\ Forall2 recoded_series cols cols'
  | XArray _ _ k n cols, XArray _ _ k' n' cols' =>
      n' = n /\ in_uif k = true /\ in_uif k' = true /\
      (k' = k \/ forall c, In c cols -> hasnans V c = false) /\ Forall2 recoded_cells cols cols'
  | _, _ => False
  end.

(** The same for what is given to the forests; the argument categorical_features is the
    same. *)
Definition recoded_table (X X' : table V NM) : Prop :=
  recoded (tb_X V NM X) (tb_X V NM X') /\ tb_cf V NM X' = tb_cf V NM X.
End Monotone.

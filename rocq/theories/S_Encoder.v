(** * Specification: encoding of the features

    What the documentation of the Encoder says about one cell, and what is assumed about
    the data frames and arrays it is given. *)

Require Import List Arith NArith ZArith Bool.
Require Import Verif.Base Verif.Num Verif.M_Bitarray Verif.M_Binning Verif.M_Encoder.
Import ListNotations.

Section Spec.
Context {A : arith} (V : values A) {NM : Type}.
Notation val := (val V).

(** [==] is an equivalence on the values which are not missing, and the conversions to
    floats send exactly the missing values to NaN. *)
Record good_values : Prop := {
  gv_refl : forall x, isna V x = false -> veqb V x x = true;
  gv_sym : forall x y, veqb V x y = true -> veqb V y x = true;
  gv_trans : forall x y z, veqb V x y = true -> veqb V y z = true -> veqb V x z = true;
  gv_as64 : forall x r, as64 V x = Some r -> anan r = isna V x;
  gv_as32 : forall x r, as32 V x = Some r -> anan r = isna V x
}.

(** A list of different categories, none of which is missing. *)
Definition categories_ok (cats : list val) : Prop :=
  (forall c, In c cats -> isna V c = false) /\
  (forall i j c c', i <> j -> nth_error cats i = Some c -> nth_error cats j = Some c' -> veqb V c c' = false).

(** A column with [n] cells; pandas' categorical columns have a valid list of categories
    and contain nothing else. *)
Definition column_ok (n : nat) (col : column V) : Prop :=
  length (s_cells V col) = n /\
  match s_cats V col with
  | None => True
  | Some cats => s_kind V col = KObject /\ categories_ok cats /\ (N.of_nat (length cats) < 2 ^ 62)%N /\
      forall x, In x (s_cells V col) -> isna V x = false -> exists c, In c cats /\ veqb V c x = true
  end.

(** Data frames and arrays: columns of the same length. Sizes fit in the memory of a
    machine. *)
Definition data_ok (X : xdata V NM) : Prop :=
  match X with
  | XFrame _ _ n cols => 1 <= n /\ (N.of_nat n < 2 ^ 62)%N /\ forall p, In p cols -> column_ok n (snd p)
  | XArray _ _ k n cols => 1 <= n /\ (N.of_nat n < 2 ^ 62)%N /\ forall c, In c cols -> length c = n
  | _ => True
  end.

(** The inputs for which the encoder is documented to work: different names for the
    columns of a data frame, and no missing values in arrays which are not numerical. *)
Definition clean (X : xdata V NM) : Prop :=
  match X with
  | XFrame _ _ n cols => NoDup (map fst cols)
  | XArray _ _ k n cols => in_uif k = true \/ forall c x, In c cols -> In x c -> isna V x = false
  | _ => True
  end.

(** Column [j] and cell [(i, j)] of the input. *)
Definition column_at (X : xdata V NM) (j : nat) : option (column V) :=
  match X with
  | XFrame _ _ n cols => option_map snd (nth_error cols j)
  | XArray _ _ k n cols => option_map (mkColumn V k None) (nth_error cols j)
  | _ => None
  end.
Definition cell_at (X : xdata V NM) (i j : nat) : option val :=
  match column_at X j with Some c => nth_error (s_cells V c) i | None => None end.

(** How the numerical values are read: arrays which are not numerical are converted to
    float32, the others to float64. *)
Definition reading (X : xdata V NM) : val -> option (num A) :=
  match X with
  | XArray _ _ k _ _ => if in_uif k then as64 V else as32 V
  | _ => as64 V
  end.

(** Column [j] of the input has, or declares, category [c]. *)
Definition has_category (X : xdata V NM) (j : nat) (c : val) : Prop :=
  exists col, column_at X j = Some col /\
    match s_cats V col with
    | Some cats => In c cats
    | None => In c (s_cells V col) /\ isna V c = false
    end.

(** [c] is one of the categories. *)
Definition known (cats : list val) (c : val) : Prop := exists c', In c' cats /\ veqb V c' c = true.

(** The documented bin [b] of a value [x] in a column where [d] was learned. The category
    [categories_[b]] is the value; missing values and unknown categories get the bin after
    the last category. For numbers, bin [b] is the interval between the thresholds [b-1]
    (excluded) and [b] (included), and missing values get the bin after the last interval. *)
Definition documented_bin (read : val -> option (num A)) (d : learned V) (x : val) (b : nat) : Prop :=
  match d with
  | LCat _ cats =>
      (isna V x = false /\ exists c, nth_error cats b = Some c /\ veqb V c x = true) \/
      ((isna V x = true \/ ~ known cats x) /\ b = length cats)
  | LNum _ thr =>
      (isna V x = true /\ b = length thr + 1) \/
      (isna V x = false /\ exists y, read x = Some y /\ b <= length thr /\
         forall k t, nth_error thr k = Some t -> (k < b -> aleb y t = false) /\ (b <= k -> aleb y t = true))
  end.

(** Thresholds are non-decreasing, for an order which is transitive (see C04 for when it
    is so). *)
Definition ordered (cols : list (learned V)) : Prop :=
  (forall x y z : num A, aleb x y = true -> aleb y z = true -> aleb x z = true) /\
  forall thr, In (LNum V thr) cols -> forall i j s t, i < j ->
    nth_error thr i = Some s -> nth_error thr j = Some t -> aleb s t = true.

(** What inverse_transform should give back for a value [x]. *)
Definition gives_back (read : val -> option (num A)) (d : learned V) (x : val) (o : outcell V) : Prop :=
  match o with
  | ONaN _ => isna V x = true \/ exists cats, d = LCat V cats /\ ~ known cats x
  | OVal _ c => is_cat V d = true /\ isna V x = false /\ veqb V c x = true
  | OInterval _ l r => is_cat V d = false /\ isna V x = false /\ exists y, read x = Some y /\
      (forall t, l = Some t -> aleb y t = false) /\ (forall t, r = Some t -> aleb y t = true)
  end.

(** Data frames, and two-dimensional arrays of a supported dtype. *)
Definition supported (X : xdata V NM) : Prop :=
  match X with
  | XFrame _ _ _ _ => True
  | XArray _ _ k _ _ => (in_bOSU k || in_uif k)%bool = true
  | _ => False
  end.

(** The columns which were numerical at fit still are numbers. *)
Definition still_numbers (X : xdata V NM) (cols : list (learned V)) : Prop :=
  forall j thr col, nth_error cols j = Some (LNum V thr) -> column_at X j = Some col ->
    match X with XFrame _ _ _ _ => s_cats V col = None /\ in_uif (s_kind V col) = true | _ => True end /\
    forall x, In x (s_cells V col) -> reading X x <> None.

(** Data that fit accepts. Columns have a supported dtype, numerical columns contain
    numbers, and in an array of strings or objects the columns that the user declares not to
    be categorical contain numbers. *)
Definition acceptable (X : xdata V NM) (flags : option (list bool)) : Prop :=
  match X with
  | XFrame _ _ n cols => forall p, In p cols ->
      in_bOSU (s_kind V (snd p)) = true \/
      (in_uif (s_kind V (snd p)) = true /\ s_cats V (snd p) = None /\ forall x, In x (s_cells V (snd p)) -> as64 V x <> None)
  | XArray _ _ k n cols =>
      (in_bOSU k || in_uif k)%bool = true /\
      (in_uif k = true -> forall c x, In c cols -> In x c -> as64 V x <> None) /\
      (in_bOSU k = true -> match flags with
        | Some l => forall j c, nth_error l j = Some false -> nth_error cols j = Some c -> forall x, In x c -> as32 V x <> None
        | None => True
        end)
  | _ => False
  end.

(** The cells which are not missing. *)
Definition present (cells l : list val) : Prop := l = filter (fun x => negb (isna V x)) cells.

(** There are [k] different values in a list. *)
Definition n_different (l : list val) (k : nat) : Prop :=
  exists reps, length reps = k /\
    (forall x, In x reps -> In x l) /\
    (forall i j x y, i <> j -> nth_error reps i = Some x -> nth_error reps j = Some y -> veqb V x y = false) /\
    (forall x, In x l -> exists y, In y reps /\ (x = y \/ veqb V x y = true)).
End Spec.

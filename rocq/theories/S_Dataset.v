(** * Specification: from a file to training and test sets *)

Require Import String List Arith Bool Permutation.
Require Import Verif.Base Verif.Num Verif.M_Encoder Verif.M_Dataset.
Import ListNotations.

Section Spec.
Context {A : arith} (V : values A).
Notation val := (val V).
Notation T := (num A).

(** Columns with different names and the same number of cells. *)
Definition frame_ok (df : frame V) : Prop :=
  NoDup (map fst (fr_cols V df)) /\
  forall c, In c (fr_cols V df) -> List.length (snd (snd c)) = fr_n V df.

(** The cell of row [i] in the column named [c], and the names and dtypes of a frame. *)
Definition cell (df : frame V) (c : string) (i : nat) : option val :=
  match find (fun p => String.eqb c (fst p)) (fr_cols V df) with
  | Some p => nth_error (snd (snd p)) i
  | None => None
  end.
Definition schema (df : frame V) : list (string * bool) := map (fun c => (fst c, fst (snd c))) (fr_cols V df).

(** Two rows with the same content. *)
Definition same_row (df : frame V) (i : nat) (df' : frame V) (i' : nat) : Prop :=
  forall c, cell df c i = cell df' c i'.

(** The documentation of [train_test_split]: each row goes to exactly one of the sets. *)
Definition splits (E : denv V) : Prop := forall seed n strat tr te,
  de_split V E seed n strat = Ok (tr, te) -> Permutation (tr ++ te) (seq 0 n).

(** [tr] and [te] are the rows chosen by [train_test_split] when [extract] calls it. *)
Definition chosen_rows (E : denv V) (d : dataset) (df : frame V) (seed : nat) (tr te : list nat) : Prop :=
  match ds_task d with
  | DRegression => de_split V E seed (fr_n V df) None = Ok (tr, te)
  | DClassification => exists l, col V df (ds_label d) = Ok l /\ de_split V E seed (fr_n V df) (Some l) = Ok (tr, te)
  end.

(** Row [k] of a matrix, and the label at position [k]. *)
Definition matrix_row (X : list (list T)) (k : nat) : list (option T) := map (fun c => nth_error c k) X.
Definition label_at (y : labels V) (k : nat) : option (val + nat) :=
  match y with
  | YValues _ l => option_map inl (nth_error l k)
  | YCodes _ l => option_map inr (nth_error l k)
  end.
Definition n_labels (y : labels V) : nat := match y with YValues _ l => List.length l | YCodes _ l => List.length l end.

(** Equality of cells; a missing value is equal to a missing value. *)
Definition same_value (x y : val) : Prop :=
  isna V x = isna V y /\ (isna V x = false -> veqb V x y = true).

(** [cats] lists, once each, the values in rows [tr] of column [c]. *)
Definition modalities_of (df : frame V) (c : string) (tr : list nat) (cats : list val) : Prop :=
  (forall i x, In i tr -> cell df c i = Some x -> exists m, In m cats /\ same_value m x) /\
  (forall m, In m cats -> exists i x, In i tr /\ cell df c i = Some x /\ same_value m x) /\
  (forall k k' m m', nth_error cats k = Some m -> nth_error cats k' = Some m' -> same_value m m' -> k = k').

(** The lists given to the constructor are the columns of the file, in the order of the
    file, except the label. *)
Definition matching (d : dataset) (df : frame V) : Prop :=
  let others := filter (fun p => negb (String.eqb (fst p) (ds_label d))) (schema df) in
  names_in (ds_continuous d) = map fst (filter (fun p => negb (snd p)) others) /\
  names_in (ds_categorical d) = map fst (filter snd others).

(** What a column of the matrix named [name] contains: it comes from the column [c] of the
    file, and for the cell [x] of a row it contains [r]. Numbers are centred and scaled by what
    [StandardScaler] learns from rows [tr]. *)
Inductive meaning (E : denv V) (d : dataset) (df : frame V) (tr : list nat) : string -> string -> (val -> T -> Prop) -> Prop :=
| mean_scaled : forall c nums, ds_standardize d = true -> In (c, false) (schema df) ->
    Forall2 (fun i r => exists x, cell df c i = Some x /\ as64 V x = Some r) tr nums ->
    meaning E d df tr c c (fun x r => exists y, as64 V x = Some y /\
      r = adiv (asub y (fst (de_scaler V E nums))) (snd (de_scaler V E nums)))
| mean_raw : forall c, ds_standardize d = false -> In (c, false) (schema df) ->
    meaning E d df tr c c (fun x r => as64 V x = Some r)
| mean_hot : forall c cats k m, ds_one_hot d = true -> In (c, true) (schema df) ->
    modalities_of df c tr cats -> nth_error cats k = Some m ->
    meaning E d df tr (c ++ "#" ++ str_nat k) c
      (fun x r => (same_value m x /\ r = a1) \/ (~ same_value m x /\ r = a0))
| mean_ord : forall c cats, ds_one_hot d = false -> In (c, true) (schema df) ->
    modalities_of df c tr cats ->
    meaning E d df tr c c
      (fun x r => (exists k m, nth_error cats k = Some m /\ same_value m x /\
                     r = if isna V x then de_nan V E else aofnat k) \/
                  ((forall m, In m cats -> ~ same_value m x) /\ r = aopp a1)).

(** [astype(int)] keeps the codes and raises for NaN. *)
Definition keeps_codes (E : denv V) : Prop :=
  (forall k, de_int V E (aofnat k) = Some (aofnat k)) /\ de_int V E (aopp a1) = Some (aopp a1) /\
  de_int V E (de_nan V E) = None.

(** The entry of a matrix in column [j] and row [k]. *)
Definition entry (X : list (list T)) (j k : nat) : option T :=
  match nth_error X j with Some c => nth_error c k | None => None end.

End Spec.

(** * Model of wildwood/preprocessing/encoder.py and wildwood/preprocessing/_checks.py *)

Require Import List Arith NArith ZArith Bool.
Require Import Verif.Base Verif.Num Verif.M_Bitarray Verif.M_Binning.
Import ListNotations.

(** ** Data frames and arrays *)

(** [dtype.kind]: the letters "b", "O", "S", "U", "u", "i", "f" and all others. *)
Inductive kind : Type := KBool | KObject | KBytes | KUnicode | KUint | KInt | KFloat | KOther.

(** [dtype.kind in "bOSU"] and [dtype.kind in "uif"]. *)
Definition in_bOSU (k : kind) : bool :=
  match k with KBool | KObject | KBytes | KUnicode => true | _ => false end.
Definition in_uif (k : kind) : bool :=
  match k with KUint | KInt | KFloat => true | _ => false end.

(** What Python, numpy and pandas do with the content of a cell: whether it is missing
    (NaN, None), [==], the order used to sort categories, and the conversions to float64 and
    to float32 ([None]: the conversion raises). The theorems state the laws they need. *)
Record values (A : arith) : Type := mkValues {
  val : Type;
  isna : val -> bool;
  veqb : val -> val -> bool;
  vleb : val -> val -> bool;
  as64 : val -> option (num A);
  as32 : val -> option (num A)
}.
Arguments val {A}. Arguments isna {A}. Arguments veqb {A}. Arguments vleb {A}.
Arguments as64 {A}. Arguments as32 {A}.

(** What the encoder gets from its environment: [rng.choice(n, k, replace=False)],
    [floor(log(n))], [floor(sqrt(n))], the constant [ALMOST_INF] and the content of the
    memory returned by [np.empty]. *)
Record eenv (A : arith) : Type := mkEenv {
  ee_choice : nat -> nat -> list nat;
  ee_log : nat -> nat;
  ee_sqrt : nat -> nat;
  ee_almost_inf : num A;
  ee_mem : nat -> N
}.
Arguments ee_choice {A}. Arguments ee_log {A}. Arguments ee_sqrt {A}. Arguments ee_almost_inf {A}.
Arguments ee_mem {A}.

(** Indexing a numpy array from Python: an IndexError if out of bounds. *)
Definition geti {X} (l : list X) (i : nat) : res X :=
  match nth_error l i with Some x => Ok x | None => Err IndexErr end.

(** [enumerate(l)] *)
Definition enumerate {X} (l : list X) : list (nat * X) := combine (seq 0 (length l)) l.

Section Encoder.
Context {A : arith} (V : values A) (NM : Type) (nm_eqb : NM -> NM -> bool) (EE : eenv A).
Notation val := (val V).

(** A column: its dtype and content. [s_cats] is [Some categories] for a pandas column of
    dtype "category" (whose kind is "O"), and the cells then are categories or missing. *)
Record column : Type := mkColumn {
  s_kind : kind;
  s_cats : option (list val);
  s_cells : list val
}.

(** What can be given as [X]: a data frame, with named columns, or an array, given by its
    columns; both have a number of rows. *)
Inductive xdata : Type :=
| XFrame (n_samples : nat) (cols : list (NM * column))
| XArray (k : kind) (n_samples : nat) (cols : list (list val))
| XArrayNot2D
| XOther.

Definition shape (X : xdata) : nat * nat :=
  match X with
  | XFrame n cols => (n, length cols)
  | XArray _ n cols => (n, length cols)
  | _ => (0, 0)
  end.

(** *** pandas *)

(** [col.hasnans] *)
Definition hasnans (cells : list val) : bool := existsb (isna V) cells.
Definition dropna (cells : list val) : list val := filter (fun x => negb (isna V x)) cells.

(** One representative of each value, the last ones in the list. *)
Fixpoint distinct (l : list val) : list val :=
  match l with
  | [] => []
  | x :: t => if existsb (veqb V x) t then distinct t else x :: distinct t
  end.

Fixpoint insert_val (x : val) (l : list val) : list val :=
  match l with
  | [] => [x]
  | y :: t => if vleb V x y then x :: l else y :: insert_val x t
  end.
Fixpoint sort_val (l : list val) : list val :=
  match l with [] => [] | x :: t => insert_val x (sort_val t) end.

(** [col.astype("category")] and [pd.Series(col, dtype="category")]: the categories are
    the different values which are not missing, sorted. Simplification: pandas keeps them
    in order of appearance if sorting them raises. *)
Definition categories_of (cells : list val) : list val := sort_val (distinct (dropna cells)).
Definition as_category (s : column) : column :=
  match s_cats s with
  | Some _ => s
  | None => mkColumn KObject (Some (categories_of (s_cells s))) (s_cells s)
  end.

(** [col.nunique()] does not count missing values. *)
Definition nunique (cells : list val) : nat := length (distinct (dropna cells)).
(** [np.unique(col).size]: for floats the missing values count for one (numpy >= 1.21); for
    the other dtypes values are compared with [==]. *)
Definition np_unique_size (k : kind) (cells : list val) : nat :=
  match k with
  | KFloat => nunique cells + (if hasnans cells then 1 else 0)
  | _ => length (distinct cells)
  end.

(** The code of a value among [cats]: its position; [None] stands for pandas' code -1. *)
Fixpoint position (cats : list val) (x : val) : option nat :=
  match cats with
  | [] => None
  | c :: t => if veqb V c x then Some 0 else option_map S (position t x)
  end.
Definition code (cats : list val) (x : val) : option nat :=
  if isna V x then None else position cats x.

(** [np.asarray(col, dtype=...)] *)
Definition convert (f : val -> option (num A)) (cells : list val) : res (list (num A)) :=
  mapM (fun x => match f x with Some y => Ok y | None => Err ValueErr end) cells.

(** *** _checks.py *)

(** _checks.py:320-368, [check_X]: the result tells if [X] is a data frame. *)
Definition check_X (X : xdata) (is_categorical : option (list bool)) (n_features : option nat) : res bool :=
  let* is_dataframe :=
    match X with
    | XFrame _ _ => Ok true
    | XArray k _ _ => if in_bOSU k || in_uif k then Ok false else Err ValueErr
    | XArrayNot2D => Err ValueErr
    | XOther => Err ValueErr
    end in
  let* _ := match n_features with
            | Some n => if snd (shape X) =? n then Ok tt else Err ValueErr
            | None => Ok tt
            end in
  let* _ := match is_categorical with
            | Some l => if snd (shape X) =? length l then Ok tt else Err ValueErr
            | None => Ok tt
            end in
  Ok is_dataframe.

Inductive col_type : Type := Is_category | To_category | Numerical.

(** _checks.py:16-153, [is_series_categorical]. The warnings are not modelled. *)
Definition is_series_categorical (col : column) (is_categorical : option bool) (cat_min_categories : nat) : res col_type :=
  if in_bOSU (s_kind col) then
    match is_categorical with
    | None => match s_cats col with Some _ => Ok Is_category | None => Ok To_category end
    | Some true => match s_cats col with Some _ => Ok Is_category | None => Ok To_category end
    | Some false => match s_cats col with Some _ => Ok Is_category | None => Ok To_category end
    end
  else if in_uif (s_kind col) then
    match is_categorical with
    | None => if nunique (s_cells col) <=? cat_min_categories then Ok To_category else Ok Numerical
    | Some true => Ok To_category
    | Some false => Ok Numerical
    end
  else Err ValueErr.

(** [try: col.astype(np.float32)] *)
Definition castable (cells : list val) : bool :=
  match convert (as32 V) cells with Ok _ => true | Err _ => false end.

(** _checks.py:156-317, [get_array_dtypes]. *)
Definition get_array_dtypes (k : kind) (cols : list (list val)) (is_categorical : option (list bool)) (cat_min_categories : nat)
  : res (list bool) :=
  if in_bOSU k then
    match is_categorical with
    | None =>
        mapM (fun col => if np_unique_size k col <=? cat_min_categories then Ok true
                         else if castable col then Ok false else Ok true) cols
    | Some flags =>
        mapM (fun p => let* flag := geti flags (fst p) in
                       if flag : bool then Ok true
                       else if castable (snd p) then Ok false else Err ValueErr) (enumerate cols)
    end
  else if in_uif k then
    match is_categorical with
    | None => mapM (fun col => if np_unique_size k col <=? cat_min_categories then Ok true else Ok false) cols
    | Some flags => mapM (fun p => let* flag := geti flags (fst p) in if flag : bool then Ok true else Ok false) (enumerate cols)
    end
  else Err ValueErr.

(** The [categorical_features] given by the user, after [np.asarray]: one-dimensional
    arrays of integers, of booleans, and of any other dtype (of which only the size
    matters). *)
Inductive cat_features : Type :=
| CFNone
| CFInts (l : list Z)
| CFBools (l : list bool)
| CFOther (size : nat).

(** _checks.py:371-445, [get_is_categorical]. *)
Definition get_is_categorical (cf : cat_features) (n_features : nat) : res (option (list bool)) :=
  match cf with
  | CFNone => Ok None
  | CFInts [] => Ok None
  | CFBools [] => Ok None
  | CFOther 0 => Ok None
  | CFInts l =>
      if existsb (fun z => (Z.of_nat n_features <=? z)%Z) l || existsb (fun z => (z <? 0)%Z) l then Err ValueErr
      else Ok (Some (map (fun j => existsb (Z.eqb (Z.of_nat j)) l) (seq 0 n_features)))
  | CFBools l => if length l =? n_features then Ok (Some l) else Err ValueErr
  | CFOther _ => Err ValueErr
  end.

(** *** encoder.py *)

Inductive cat_min : Type := CMInt (n : nat) | CMLog | CMSqrt.

(** The parameters of an Encoder, after its setters (encoder.py:118-137, 613-757).
    [handle_unknown] is "error" ([true]) or "consider_missing" ([false]). The setter of
    [cat_min_categories] ignores values which are neither integers nor strings, and the
    attribute then does not exist ([None]). *)
Record config : Type := mkConfig {
  c_max_bins : nat;
  c_subsample : option nat;
  c_is_categorical : option (list bool);
  c_cat_min : option cat_min;
  c_error : bool
}.

(** What fit learns about a column: [categories_[j]] or [binning_thresholds_[j]]. The
    attributes [categories_], [binning_thresholds_], [is_categorical_] and
    [n_bins_no_missing_values_] of the code are assigned together, at the end of fit. *)
Inductive learned : Type := LCat (cats : list val) | LNum (thr : list (num A)).

Definition is_cat (d : learned) : bool := match d with LCat _ => true | LNum _ => false end.
(** n_bins_no_missing_values_ (encoder.py:226, 235, 250, 267 and 282). *)
Definition n_bins (d : learned) : nat :=
  match d with LCat cats => length cats | LNum thr => length thr + 1 end.

(** The attributes of an Encoder that methods change. *)
Record encoder : Type := mkEncoder {
  e_fitted : bool;
  e_n_samples : option nat;
  e_n_features : option nat;
  e_cols : option (list learned)
}.
Definition new_encoder : encoder := mkEncoder false None None None.

(** encoder.py:182-188, the attribute cat_min_categories_. *)
Definition cat_min_of (cf : config) (n_samples : nat) : res nat :=
  match c_cat_min cf with
  | Some (CMInt n) => Ok n
  | Some CMLog => Ok (Nat.max 2 (ee_log EE n_samples))
  | Some CMSqrt => Ok (Nat.max 2 (ee_sqrt EE n_samples))
  | None => Err AttrErr
  end.

(** encoder.py:176-180 *)
Definition subset_of (cf : config) (n_samples : nat) : option (list nat) :=
  match c_subsample cf with
  | Some k => if k <? n_samples then Some (ee_choice EE n_samples k) else None
  | None => None
  end.

(** [col.take(subset)] *)
Definition take (subset : option (list nat)) (cells : list val) : res (list val) :=
  match subset with
  | Some l => mapM (geti cells) l
  | None => Ok cells
  end.

(** encoder.py:239-250 and 272-282: thresholds of a numerical column. Missing values are
    dropped ([_find_binning_thresholds] with [col_is_pandas_series=True]) and the others are
    converted to float64. *)
Definition learn_numerical (cf : config) (subset : option (list nat)) (cells : list val) : res learned :=
  let* cells := take subset cells in
  let* col := convert (as64 V) (dropna cells) in
  let* thr := find_binning_thresholds (ee_almost_inf EE) col (c_max_bins cf) in
  Ok (LNum thr).

(** encoder.py:197-250, the loop over the columns of a data frame. *)
Definition learn_series (cf : config) (cm : nat) (n_samples : nat) (j : nat) (col : column) : res learned :=
  let* flag := match c_is_categorical cf with
               | None => Ok None
               | Some flags => let* b := geti flags j in Ok (Some b)
               end in
  let* t := is_series_categorical col flag cm in
  match t with
  | Is_category => match s_cats col with Some cats => Ok (LCat cats) | None => Err AttrErr end
  | To_category => match s_cats (as_category col) with Some cats => Ok (LCat cats) | None => Err AttrErr end
  | Numerical => learn_numerical cf (subset_of cf n_samples) (s_cells col)
  end.

(** encoder.py:252-282, the loop over the columns of an array. *)
Definition learn_array_column (cf : config) (n_samples : nat) (cat : bool) (cells : list val) : res learned :=
  if cat then Ok (LCat (categories_of cells))
  else learn_numerical cf (subset_of cf n_samples) cells.

(** [cm] is cat_min_categories_. *)
Definition learn (cf : config) (cm : nat) (X : xdata) : res (list learned) :=
  match X with
  | XFrame n cols => mapM (fun p => learn_series cf cm n (fst p) (snd (snd p))) (enumerate cols)
  | XArray k n cols =>
      let* cats := get_array_dtypes k cols (c_is_categorical cf) cm in
      mapM (fun p => learn_array_column cf n (fst p) (snd p)) (combine cats cols)
  | _ => Err TypeErr
  end.

(** encoder.py:139-286, [fit]. The object is changed even if the method raises. *)
Definition fit (cf : config) (e : encoder) (X : xdata) : encoder * res unit :=
  match check_X X (c_is_categorical cf) None with
  | Err er => (e, Err er)
  | Ok _ =>
      let '(n, p) := shape X in
      if n =? 0 then (e, Err ValueErr) else               (* setter of n_samples_in_ *)
      let e1 := mkEncoder (e_fitted e) (Some n) (e_n_features e) (e_cols e) in
      if p =? 0 then (e1, Err ValueErr) else              (* setter of n_features_in_ *)
      let e2 := mkEncoder (e_fitted e) (Some n) (Some p) (e_cols e) in
      match (let* cm := cat_min_of cf n in learn cf cm X) with
      | Err er => (e2, Err er)
      | Ok cols => (mkEncoder true (Some n) (Some p) (Some cols), Ok tt)
      end
  end.

(** encoder.py:328-376 and 390-430, body of the first loop of transform: the number of bins
    needed for a column, and the column converted to a category if it has to.
    [max_values[col_idx] = col_n_bins - 1] is an unsigned subtraction. *)
Definition plan_column (cf : config) (d : learned) (has_missing : bool) (col : column) : res (N * column) :=
  match d with
  | LCat cats =>
      let col := as_category col in
      let cats' := match s_cats col with Some c => c | None => [] end in
      let unknown := negb (forallb (fun c => existsb (fun c' => veqb V c' c) cats) cats') in
      if unknown && c_error cf then Err ValueErr
      else
        let bins := n_bins d + (if has_missing || unknown then 1 else 0) in
        Ok (w64 (N.of_nat bins + (2 ^ 64 - 1)), col)
  | LNum _ =>
      let bins := n_bins d + (if has_missing then 1 else 0) in
      Ok (w64 (N.of_nat bins + (2 ^ 64 - 1)), col)
  end.

(** encoder.py:442-458 and 476-487: binning of a categorical column, [col.cat] raises
    AttributeError on a column which is not of dtype "category". Simplification: pandas
    stores codes on 8, 16 or 32 bits, here they are unbounded. *)
Definition bin_categorical (cats : list val) (col : column) : res (list nat) :=
  match s_cats col with
  | None => Err AttrErr
  | Some _ =>
      Ok (map (fun x => match code cats x with Some k => k | None => length cats end) (s_cells col))
  end.

(** encoder.py:432-472: second loop of transform for a data frame, one column. The compiled
    [_bin_continuous_column] only takes arrays of numbers. *)
Definition bin_series (d : learned) (max_value : N) (col : column) : res (list nat) :=
  match d with
  | LCat cats => bin_categorical cats col
  | LNum thr =>
      match s_cats col with
      | Some _ => Err TypeErr
      | None =>
          if in_uif (s_kind col) then
            let* x := convert (as64 V) (s_cells col) in
            bin_continuous_column x thr (N.to_nat max_value)
          else Err TypeErr
      end
  end.

(** encoder.py:473-497: the same for a column of an array of kind [k]. *)
Definition bin_array_column (k : kind) (d : learned) (max_value : N) (col : column) : res (list nat) :=
  match d with
  | LCat cats => bin_categorical cats col
  | LNum thr =>
      let* x := if in_uif k then convert (as64 V) (s_cells col) else convert (as32 V) (s_cells col) in
      bin_continuous_column x thr (N.to_nat max_value)
  end.

(** [X_dict[col_name] = col]: a dictionary keeps the position of a key that it has. *)
Fixpoint dict_set (d : list (NM * column)) (k : NM) (v : column) : list (NM * column) :=
  match d with
  | [] => [(k, v)]
  | (k', v') :: t => if nm_eqb k' k then (k', v) :: t else (k', v') :: dict_set t k v
  end.

(** Filling the columns one after the other. *)
Definition fill_columns (cols : list learned) (max_values : list N) (bin : learned -> N -> column -> res (list nat))
  (todo : list column) (fb : fba) : res fba :=
  foldM (fun fb p =>
           let* d := geti cols (fst p) in
           let* mv := geti max_values (fst p) in
           let* b := bin d mv (snd p) in
           fill_column fb (fst p) (map N.of_nat b)) (enumerate todo) fb.

(** encoder.py:288-497, [transform]. *)
Definition transform (cf : config) (e : encoder) (X : xdata) : res fba :=
  if negb (e_fitted e) then Err ValueErr                   (* property n_features_in_ *)
  else
    let* _ := check_X X (c_is_categorical cf) (e_n_features e) in
    match e_cols e with
    | None => Err TypeErr
    | Some cols =>
        match X with
        | XFrame n todo =>
            let* plan := mapM (fun p => let* d := geti cols (fst p) in
                                        plan_column cf d (hasnans (s_cells (snd (snd p)))) (snd (snd p)))
                              (enumerate todo) in
            let max_values := map fst plan in
            let X_dict := fold_left (fun dict p => dict_set dict (fst p) (snd p)) (combine (map fst todo) (map snd plan)) [] in
            let* fb := fba_init (ee_mem EE) n max_values in
            fill_columns cols max_values bin_series (map snd X_dict) fb
        | XArray k n todo =>
            let* plan := mapM (fun p => let* d := geti cols (fst p) in
                                        plan_column cf d (in_uif k && hasnans (snd p)) (mkColumn k None (snd p)))
                              (enumerate todo) in
            let max_values := map fst plan in
            let* fb := fba_init (ee_mem EE) n max_values in
            fill_columns cols max_values (bin_array_column k) (map snd plan) fb
        | _ => Err TypeErr
        end
    end.

(** A cell of the data frame returned by inverse_transform: NaN, a category, or an interval
    closed on the right, whose ends may be infinite ([None]). *)
Inductive outcell : Type :=
| ONaN
| OVal (x : val)
| OInterval (left right : option (num A)).

(** [pd.arrays.IntervalArray.from_arrays(t[:-1], t[1:])] for [t] the thresholds between the
    two infinities: raises if [left <= right] fails somewhere or if one end is NaN. *)
Fixpoint intervals_from (left : option (num A)) (thr : list (num A)) : res (list outcell) :=
  match thr with
  | [] => Ok [OInterval left None]
  | t :: rest =>
      if anan t then Err ValueErr
      else match left with
           | Some l => if aleb l t then let* r := intervals_from (Some t) rest in Ok (OInterval left (Some t) :: r)
                       else Err ValueErr
           | None => let* r := intervals_from (Some t) rest in Ok (OInterval left (Some t) :: r)
           end
  end.

(** encoder.py:535-578: one column of the result of inverse_transform. [pd.Categorical]
    keeps the values; its dtype has kind "O", so that the conversion to float of line 557 is
    never done. *)
Definition inverse_column (d : learned) (binned : list N) : res (list outcell) :=
  let missing := N.of_nat (n_bins d) in
  let* known := match d with
                | LCat cats => Ok (map OVal cats)
                | LNum thr => intervals_from None thr
                end in
  mapM (fun b => if (b =? missing)%N
                 then let* _ := geti known 0 in Ok ONaN
                 else geti known (N.to_nat b)) binned.

(** encoder.py:502-580, [inverse_transform]; the result is given by its columns. The
    arguments [return_dataframe], [columns] and [index] are not used by the code. *)
Definition inverse_transform (e : encoder) (fb : fba) : res (list (list outcell)) :=
  let* X_binned := to_array fb in
  if negb (e_fitted e) then Err ValueErr                   (* property n_features_in_ *)
  else match e_cols e, e_n_features e with
       | Some cols, Some p =>
           mapM (fun j => let* binned := mapM (fun row => geti row j) X_binned in
                          let* d := geti cols j in
                          inverse_column d binned) (seq 0 p)
       | _, _ => Err TypeErr
       end.
End Encoder.

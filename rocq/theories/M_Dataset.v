(** * Model of wildwood/datasets/dataset.py

    The transformers of scikit-learn (pyproject.toml asks for version 1.3 or later) and the
    data frames of pandas are modelled by their documented behaviour. *)

Require Import String DecimalString List Arith Bool.
Require Import Verif.Base Verif.Num Verif.M_Encoder.
Import ListNotations.
Local Open Scope res_scope.

(** [str(n)] for a natural number. *)
Definition str_nat (n : nat) : string := NilEmpty.string_of_uint (Nat.to_uint n).

(** [mem name names] *)
Definition mem_name (c : string) (l : list string) : bool := existsb (String.eqb c) l.

Section Dataset.
Context {A : arith} (V : values A).
Notation val := (val V).
Notation T := (num A).

(** What is taken from the libraries: [train_test_split] of [n] rows (given the seed and the
    labels used to stratify; it may raise), the centre and the scale that [StandardScaler]
    learns from a column, the truncation [astype(int)] ([None]: it raises) and NaN. *)
Record denv : Type := mkDenv {
  de_split : nat -> nat -> option (list val) -> res (list nat * list nat);
  de_scaler : list T -> T * T;
  de_int : T -> option T;
  de_nan : T
}.
Context (E : denv).

(** A data frame: number of rows, and for each column its name, whether its dtype is
    "category", and its cells. *)
Record frame : Type := mkFrame {
  fr_n : nat;
  fr_cols : list (string * (bool * list val))
}.

(** [df[name]]. A KeyError is [IndexErr] here (both are Python's LookupError). *)
Definition col (df : frame) (name : string) : res (list val) :=
  match find (fun c => String.eqb name (fst c)) (fr_cols df) with
  | Some c => Ok (snd (snd c))
  | None => Err IndexErr
  end.

(** The rows of a data frame at some positions. *)
Definition take_rows (rows : list nat) (df : frame) : res frame :=
  let* cols := mapM (fun c => let* cells := mapM (geti (snd (snd c))) rows in Ok (fst c, (fst (snd c), cells))) (fr_cols df) in
  Ok (mkFrame (List.length rows) cols).

(** For [np.unique] as used by the encoders of scikit-learn, a missing value is one more
    category, the last one (the conversions to floats are not used). *)
Definition with_missing : values A :=
  mkValues A val (fun _ => false)
    (fun x y => if isna V x then isna V y else negb (isna V y) && veqb V x y)%bool
    (fun x y => isna V y || (negb (isna V x) && vleb V x y))%bool
    (fun _ => None) (fun _ => None).
Definition modalities (cells : list val) : list val := categories_of with_missing cells.
Definition code_of (cats : list val) (x : val) : option nat := position with_missing cats x.

(** ** The attributes of a Dataset *)

(** [task]: "regression", or anything else. *)
Inductive dtask : Type := DRegression | DClassification.

(** dataset.py:107-157, [Dataset.__init__]: the arguments which [extract] uses, and
    [drop_columns]. Simplifications: [drop] is [None] or "first"; the type of the matrix
    ([sparse]) is not modelled; [test_size] and the seed are given to the environment. *)
Record dataset : Type := mkDataset {
  ds_task : dtask;
  ds_label : string;
  ds_continuous : option (list string);
  ds_categorical : option (list string);
  ds_drop_columns : list string;
  ds_standardize : bool;
  ds_one_hot : bool;
  ds_drop_first : bool;
  ds_pd : bool
}.

(** dataset.py:171-190, [Dataset.from_dtype]; [dtype.items()] is a list of names with
    whether the type is "category". The other arguments have the default values of lines
    112-122. *)
Definition from_dtype (task : dtask) (label : string) (dtype : list (string * bool)) (drop : list string) (one_hot : bool) : dataset :=
  mkDataset task label
    (Some (map fst (filter (fun p => negb (snd p)) dtype)))
    (Some (map fst (filter snd dtype)))
    drop true one_hot false false.

(** [df.drop(names, axis="columns")]: an unknown name raises a KeyError. *)
Definition drop_cols (names : list string) (df : frame) : res frame :=
  if forallb (fun c => mem_name c (map fst (fr_cols df))) names
  then Ok (mkFrame (fr_n df) (filter (fun c => negb (mem_name (fst c) names)) (fr_cols df)))
  else Err IndexErr.

(** dataset.py:192-205, [load_from_csv]: [df] is what [pd.read_csv] returned. *)
Definition load_from_csv (d : dataset) (df : frame) : res frame := drop_cols (ds_drop_columns d) df.

(** dataset.py:42-49, [get_X_y_from_dataframe], also the end of [load_raw_dataset], lines
    95-97; [drop = []] stands for [None] too. *)
Definition get_X_y (df : frame) (label : string) (drop : list string) : res (frame * list val) :=
  let* df := drop_cols drop df in
  let* y := col df label in
  let* X := drop_cols [label] df in
  Ok (X, y).

(** ** The transformers *)

Definition names_in (o : option (list string)) : list string := match o with Some l => l | None => [] end.

(** What is learned from the cells of one column of the training rows. *)
Inductive lcol : Type :=
| LScale (centre scale : T)
| LSame
| LHot (cats : list val)
| LOrd (cats : list val).

(** A fitted [ColumnTransformer]: is it the categorical one, and its columns. *)
Record tstep : Type := mkTstep { ts_cat : bool; ts_cols : list (string * lcol) }.

(** Learning from one column; [StandardScaler] converts to floats first. *)
Definition learn_col (d : dataset) (cat : bool) (cells : list val) : res lcol :=
  if cat then Ok (if ds_one_hot d then LHot (modalities cells) else LOrd (modalities cells))
  else if ds_standardize d then
    let* xs := convert V (as64 V) cells in
    let '(m, s) := de_scaler E xs in Ok (LScale m s)
  else Ok LSame.

(** A column named in a [ColumnTransformer] which is not in the frame: ValueError. *)
Definition select (df : frame) (name : string) : res (list val) :=
  match col df name with Ok c => Ok c | Err _ => Err ValueErr end.

(** dataset.py:213-295, [_build_transform] followed by [fit(df_train)], line 340. *)
Definition fit_step (d : dataset) (df : frame) (cat : bool) (names : list string) : res (list tstep) :=
  match names with
  | [] => Ok []
  | _ => let* cols := mapM (fun c => let* cells := select df c in let* l := learn_col d cat cells in Ok (c, l)) names in
         Ok [mkTstep cat cols]
  end.
Definition fit_transformer (d : dataset) (df : frame) : res (list tstep) :=
  let* a := fit_step d df false (names_in (ds_continuous d)) in
  let* b := fit_step d df true (names_in (ds_categorical d)) in
  Ok (a ++ b).

(** The columns made from one column. One-hot: one column for each modality of the training
    rows (but the first one if [drop = "first"]), full of zeros for an unknown value. Ordinal:
    -1 for an unknown value, NaN for a missing one. *)
Definition apply_col (d : dataset) (l : lcol) (cells : list val) : res (list (list T)) :=
  match l with
  | LScale m s => let* xs := convert V (as64 V) cells in Ok [map (fun x => adiv (asub x m) s) xs]
  | LSame => let* xs := convert V (as64 V) cells in Ok [xs]
  | LHot cats =>
      Ok (map (fun k => map (fun x => match code_of cats x with
                                      | Some k' => if k =? k' then a1 else a0
                                      | None => a0 end) cells)
            (seq (if ds_drop_first d then 1 else 0) (List.length cats - (if ds_drop_first d then 1 else 0))))
  | LOrd cats =>
      Ok [map (fun x => match code_of cats x with
                        | Some k => if isna V x then de_nan E else aofnat k
                        | None => aopp a1 end) cells]
  end.

(** [FeatureUnion.transform]: the columns one after the other, lines 341-342. *)
Definition transform_frame (d : dataset) (steps : list tstep) (df : frame) : res (list (list T)) :=
  let* blocks := mapM (fun p => let* cells := select df (fst p) in apply_col d (snd p) cells) (flat_map ts_cols steps) in
  Ok (concat blocks).

(** ** extract *)

(** dataset.py:304-315: the columns of the frame of dtype "category" (or not), without the
    label. *)
Definition columns_where (cat : bool) (d : dataset) (df : frame) : list string :=
  map fst (filter (fun c => (negb (String.eqb (fst c) (ds_label d)) && Bool.eqb (fst (snd c)) cat)%bool) (fr_cols df)).

(** dataset.py:345-372 *)
Definition modality_names (c : string) (mods : list val) : list string :=
  map (fun k => (c ++ "#" ++ str_nat k)%string) (seq 0 (List.length mods)).
Definition column_names (d : dataset) (df : frame) (steps : list tstep) : res (list string) :=
  let conts := columns_where false d df in
  let cats := columns_where true d df in
  let* tail :=
    match cats with
    | [] => Ok []
    | _ =>
      if ds_one_hot d then
        match rev steps with
        | [] => Err IndexErr
        | s :: _ =>
          if ts_cat s then
            let* mods := mapM (fun p => match snd p with LHot m => Ok m | _ => Err AttrErr end) (ts_cols s) in
            Ok (flat_map (fun p => modality_names (fst p) (snd p)) (combine cats mods))
          else Err AttrErr
        end
      else Ok cats
    end in
  Ok (conts ++ tail).

(** dataset.py:321-328 *)
Definition categorical_mask (d : dataset) (df : frame) : option (list bool) :=
  let n_cat := List.length (columns_where true d df) in
  let n_cont := List.length (columns_where false d df) in
  if (negb (ds_one_hot d) && (0 <? n_cat))%bool then Some (repeat false n_cont ++ repeat true n_cat) else None.

(** dataset.py:374-384: [X[names] = X[names].astype(int).astype("category")]. *)
Definition to_category (names cats : list string) (X : list (list T)) : res (list (list T)) :=
  if forallb (fun c => mem_name c names) cats then
    mapM (fun p => if mem_name (fst p) cats
                   then mapM (fun x => match de_int E x with Some y => Ok y | None => Err ValueErr end) (snd p)
                   else Ok (snd p)) (combine names X)
  else Err IndexErr.
Definition as_frame (d : dataset) (names : list string) (X : list (list T)) : res (list (list T)) :=
  if ds_pd d then
    if List.length names =? List.length X then
      match ds_categorical d with Some cats => to_category names cats X | None => Ok X end
    else Err ValueErr
  else Ok X.

(** The labels: unchanged for regression, codes otherwise. [LabelEncoder.transform] raises
    for a label which is not among the classes. *)
Inductive labels : Type := YValues (l : list val) | YCodes (l : list nat).
Definition encode_labels (classes : list val) (cells : list val) : res (list nat) :=
  mapM (fun x => match code_of classes x with Some k => Ok k | None => Err ValueErr end) cells.

(** dataset.py:29-36, [gini] and [scaled_gini]. *)
Definition gini (probs : list T) : T := asub a1 (asum (map (fun p => amul p p) probs)).
Definition scaled_gini (probs : list T) : T :=
  let n := List.length probs in
  adiv (gini probs) (gini (repeat (adiv a1 (aofnat n)) n)).

(** dataset.py:399-403 (and 407-419, [compute_gini], where the sum of the counts is the
    number of rows): frequencies of the classes in the whole column. *)
Definition count_code (codes : list nat) (k : nat) : nat := List.length (filter (Nat.eqb k) codes).
Definition label_probs (cells : list val) : res (list T) :=
  let classes := modalities cells in
  let* codes := encode_labels classes cells in
  Ok (map (fun k => adiv (aofnat (count_code codes k)) (aofnat (List.length codes))) (seq 0 (List.length classes))).
Definition compute_gini (d : dataset) (df : frame) : res T :=
  let* cells := col df (ds_label d) in
  let* probs := label_probs cells in Ok (gini probs).

(** What [extract] returns and the attributes it sets. Matrices are lists of columns. *)
Record extracted : Type := mkExtracted {
  x_train : list (list T);
  x_test : list (list T);
  y_train : labels;
  y_test : labels;
  x_columns : list string;
  x_mask : option (list bool);
  x_n_in : nat;
  x_n_train : nat;
  x_n_test : nat;
  x_n_columns : nat;
  x_classes : option (list val);
  x_scaled_gini : option T
}.

(** dataset.py:297-405, [extract], on an object which has not been extracted before (the mask
    of an earlier extraction is kept otherwise). *)
Definition extract (d : dataset) (df : frame) (seed : nat) : res extracted :=
  let* strat := match ds_task d with DRegression => Ok None | DClassification => let* l := col df (ds_label d) in Ok (Some l) end in
  let* ' (train, test) := de_split E seed (fr_n df) strat in
  let* df_train := take_rows train df in
  let* df_test := take_rows test df in
  let* steps := fit_transformer d df_train in
  let* Xa := transform_frame d steps df_train in
  let* Xb := transform_frame d steps df_test in
  let* names := column_names d df steps in
  let* Xa := as_frame d names Xa in
  let* Xb := as_frame d names Xb in
  let* la := col df_train (ds_label d) in
  let* lb := col df_test (ds_label d) in
  let* lall := col df (ds_label d) in
  match ds_task d with
  | DRegression =>
      Ok (mkExtracted Xa Xb (YValues la) (YValues lb) names (categorical_mask d df) (fr_n df)
            (fr_n df_train) (fr_n df_test) (List.length Xa) None None)
  | DClassification =>
      let classes := modalities la in
      let* ya := encode_labels classes la in
      let* yb := encode_labels classes lb in
      let* probs := label_probs lall in
      Ok (mkExtracted Xa Xb (YCodes ya) (YCodes yb) names (categorical_mask d df) (fr_n df)
            (fr_n df_train) (fr_n df_test) (List.length Xa) (Some classes) (Some (scaled_gini probs)))
  end.

End Dataset.

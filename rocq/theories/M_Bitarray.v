(** * Model of wildwood/preprocessing/features_bitarray.py *)

Require Import List NArith Arith Lia.
Require Import Verif.Base.
Import ListNotations.
Local Open Scope res_scope.

(** 64-bit words ([uint64] arithmetic wraps). *)
Definition w64 (x : N) : N := N.modulo x (2 ^ 64).

(** [x << s] on uint64; a shift by 64 or more is undefined in the compiled code. *)
Definition shl64 (x : N) (s : nat) : res N :=
  if s <? 64 then Ok (w64 (N.shiftl x (N.of_nat s))) else Err BadShift.

Definition shr64 (x : N) (s : nat) : res N :=
  if s <? 64 then Ok (N.shiftr x (N.of_nat s)) else Err BadShift.

(** features_bitarray.py:36-110, class FeaturesBitArray: attributes of the object.
    Columns attributes are parallel arrays as in the source. *)
Record fba := mkFba {
  fb_n_samples : nat;
  fb_n_features : nat;
  fb_max_values : list N;
  fb_n_bits : list nat;
  fb_offsets : list nat;
  fb_n_values : list nat;        (* n_values_in_words *)
  fb_bitmasks : list N;
  fb_bitarray : list N
}.

(** features_bitarray.py:125-132: number of bits, values per word and bitmask.
    [ceil(np.log2(max_value + 1))] is modelled by the exact [N.log2_up]; the
    double-precision [np.log2] agrees with it for [max_value < 2^48]. *)
Definition column_n_bits (max_value : N) : nat :=
  if (max_value <=? 1)%N then 1 else N.to_nat (N.log2_up (max_value + 1)).

Definition column_n_values (max_value : N) : nat :=
  if (max_value <=? 1)%N then 64 else 64 / column_n_bits max_value.

Definition column_bitmask (max_value : N) : res N :=
  if (max_value <=? 1)%N then Ok 1%N
  else let* s := shl64 1 (column_n_bits max_value) in
       (* (1 << n_bits) - 1 on uint64 wraps below zero *)
       Ok (w64 (s + (2 ^ 64 - 1))).

(** features_bitarray.py:134: [ceil(n_samples / n_values)]; [n_values = 0] divides
    by zero. *)
Definition column_n_words (n_samples : nat) (n_values : nat) : res nat :=
  match n_values with
  | O => Err ZeroDiv
  | _ => Ok ((n_samples + (n_values - 1)) / n_values)
  end.

(** features_bitarray.py:121-136: the running offset, [offsets[0] = 0]. *)
Fixpoint offsets_loop (n_samples : nat) (offset : nat) (mvs : list N) : res (list nat) :=
  match mvs with
  | [] => Ok [offset]
  | mv :: t =>
      let* n_words := column_n_words n_samples (column_n_values mv) in
      let* r := offsets_loop n_samples (offset + n_words) t in
      Ok (offset :: r)
  end.

(** features_bitarray.py:112-138, [FeaturesBitArray.__init__]. [mem] is the content of
    the uninitialised memory returned by [np.empty]. *)
Definition fba_init (mem : nat -> N) (n_samples : nat) (max_values : list N) : res fba :=
  let* bitmasks := mapM column_bitmask max_values in
  let* offsets := offsets_loop n_samples 0 max_values in
  let total := last offsets 0 in
  Ok {| fb_n_samples := n_samples;
        fb_n_features := length max_values;
        fb_max_values := max_values;
        fb_n_bits := map column_n_bits max_values;
        fb_offsets := offsets;
        fb_n_values := map column_n_values max_values;
        fb_bitmasks := bitmasks;
        fb_bitarray := map mem (seq 0 total) |}.

(** features_bitarray.py:178-184: the loop of [_features_bitarray_fill_column].
    [i // n_values_in_word] divides by zero when [n_values_in_word = 0]. *)
Fixpoint fill_loop (n_bits n_values : nat) (i : nat) (col : list N) (cb : list N)
  : res (list N) :=
  match col with
  | [] => Ok cb
  | x :: t =>
      match n_values with
      | O => Err ZeroDiv
      | _ =>
        let word := i / n_values in
        let pos_in_word := i mod n_values in
        let* cb' :=
          if pos_in_word =? 0 then set cb word (w64 x)
          else let* old := get cb word in
               let* s := shl64 old n_bits in
               set cb word (N.lor s (w64 x)) in
        fill_loop n_bits n_values (S i) t cb'
      end
  end.

(** features_bitarray.py:157-192, [_features_bitarray_fill_column]. After the loop
    [word] and [pos_in_word] hold the values of the last iteration; they are unbound
    when the column is empty. *)
Definition fill_column_raw (cb : list N) (n_bits n_values : nat) (col : list N)
  : res (list N) :=
  let* cb' := fill_loop n_bits n_values 0 col cb in
  match length col with
  | O => Err Unbound
  | S last =>
      let word := last / n_values in
      let pos_in_word := last mod n_values in
      let* b := get cb' word in
      let* s := shl64 b ((n_values - pos_in_word - 1) * n_bits) in
      set cb' word s
  end.

(** features_bitarray.py:246-268, [features_bitarray_fill_column]. The slice
    [bitarray[offsets[j]:offsets[j+1]]] is a view: the words are written back. *)
Definition fill_column (fb : fba) (j : nat) (col : list N) : res fba :=
  let* lo := get (fb_offsets fb) j in
  let* hi := get (fb_offsets fb) (S j) in
  let* cb := slice (fb_bitarray fb) lo hi in
  let* n_values := get (fb_n_values fb) j in
  let* n_bits := get (fb_n_bits fb) j in
  let* cb' := fill_column_raw cb n_bits n_values col in
  let* b := splice (fb_bitarray fb) lo cb' in
  Ok {| fb_n_samples := fb_n_samples fb; fb_n_features := fb_n_features fb;
        fb_max_values := fb_max_values fb; fb_n_bits := fb_n_bits fb;
        fb_offsets := fb_offsets fb; fb_n_values := fb_n_values fb;
        fb_bitmasks := fb_bitmasks fb; fb_bitarray := b |}.

(** [X[:, j]] for a matrix given by its list of rows. *)
Definition column_of (X : list (list N)) (j : nat) : res (list N) :=
  mapM (fun row => get row j) X.

(** features_bitarray.py:218-243, [_features_bitarray_fill_values]. The body of its loop
    is the one of [features_bitarray_fill_column]. *)
Definition fill_values (fb : fba) (X : list (list N)) : res fba :=
  foldM (fun fb j => let* col := column_of X j in fill_column fb j col)
        (seq 0 (fb_n_features fb)) fb.

(** [X.max(axis=0, initial=0)], features_bitarray.py:290. *)
Definition col_max (col : list N) : N := fold_left N.max col 0%N.

(** features_bitarray.py:271-307, [array_to_bitarray]. [n_features] is [X.shape[1]]; the
    dtype and dimension checks are the typing of [X] here (matrices of naturals). *)
Definition array_to_bitarray (mem : nat -> N) (n_features : nat) (X : list (list N))
  : res fba :=
  let* cols := mapM (column_of X) (seq 0 n_features) in
  let* fb := fba_init mem (length X) (map col_max cols) in
  fill_values fb X.

(** features_bitarray.py:353-378, [get_value_from_column]. *)
Definition get_value_from_column (i : nat) (bitarray : list N) (bitmask : N)
  (n_values n_bits : nat) : res N :=
  match n_values with
  | O => Err ZeroDiv
  | _ =>
    let word := i / n_values in
    let pos_in_word := i mod n_values in
    let* b := get bitarray word in
    let n_shifts := (n_values - pos_in_word - 1) * n_bits in
    let* m := shl64 bitmask n_shifts in
    shr64 (N.land b m) n_shifts
  end.

(** features_bitarray.py:444-451, [get_value]. *)
Definition get_value (fb : fba) (i j : nat) : res N :=
  let* n_values := get (fb_n_values fb) j in
  let* lo := get (fb_offsets fb) j in
  let* hi := get (fb_offsets fb) (S j) in
  let* bitarray_j := slice (fb_bitarray fb) lo hi in
  let* n_bits_j := get (fb_n_bits fb) j in
  let* bitmask := get (fb_bitmasks fb) j in
  get_value_from_column i bitarray_j bitmask n_values n_bits_j.

(** features_bitarray.py:310-342, [_get_empty_matrix]: number of bits of the dtype. *)
Definition matrix_dtype_bits (max_value : N) : res N :=
  if (max_value <=? 255)%N then Ok 8%N
  else if (max_value <=? 65535)%N then Ok 16%N
  else if (max_value <=? 4294967295)%N then Ok 32%N
  else if (max_value <=? 18446744073709551615)%N then Ok 64%N
  else Err ValueErr.

(** features_bitarray.py:416-433 and 454-461, [features_bitarray_to_array]. Each cell
    is written once, so the matrix is built cell by cell (row by row here, column by
    column in the source); storing in the matrix truncates to the dtype.
    [max_values.max()] fails on an array without columns. *)
Definition to_array (fb : fba) : res (list (list N)) :=
  match fb_max_values fb with
  | [] => Err ValueErr
  | mvs =>
    let* bits := matrix_dtype_bits (col_max mvs) in
    mapM (fun i => mapM (fun j =>
        let* v := get_value fb i j in Ok (N.modulo v (2 ^ bits)))
      (seq 0 (fb_n_features fb))) (seq 0 (fb_n_samples fb))
  end.

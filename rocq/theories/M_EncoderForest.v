(** * Model of the use of the Encoder by the forests (forest.py:182-231, 266-470 and
      preprocessing/encoder.py:118-137, 613-757) *)

Require Import String List Arith NArith ZArith Bool.
Require Import Verif.Base Verif.Num Verif.M_Bitarray Verif.M_Binning Verif.M_Forest Verif.M_Encoder Verif.S_Encoder.
Import ListNotations.
Local Open Scope string_scope.
Local Open Scope list_scope.

Section Glue.
Context {A : arith} (V : values A) (NM : Type) (nm_eqb : NM -> NM -> bool) (EE : eenv A).
(** [int(x)] for a float *)
Context (to_int : num A -> res Z).

(** *** The constructor of the Encoder *)

(** encoder.py:613-622, setter of max_bins. *)
Definition check_max_bins (v : pyval A) : res nat :=
  match as_int v with
  | None => Err ValueErr
  | Some z => if (z <? 3)%Z then Err ValueErr else Ok (Z.to_nat z)
  end.

(** encoder.py:725-734, setter of subsample. *)
Definition check_subsample (v : pyval A) : res (option nat) :=
  match v with
  | PyNone => Ok None
  | PyBool b => Err ValueErr                       (* True and False are not >= 50_000 *)
  | PyInt z => if (50000 <=? z)%Z then Ok (Some (Z.to_nat z)) else Err ValueErr
  | PyFloat x => if aleb (aofnat (Z.to_nat 50000)) x then let* z := to_int x in Ok (Some (Z.to_nat z)) else Err ValueErr
  | _ => Err ValueErr
  end.

(** encoder.py:740-757, setter of cat_min_categories. *)
Definition check_cat_min (v : pyval A) : res (option cat_min) :=
  match as_int v, as_str v with
  | Some z, _ => if (z <=? 3)%Z then Err ValueErr else Ok (Some (CMInt (Z.to_nat z)))
  | None, Some s => if (s =? "log")%string then Ok (Some CMLog)
                    else if (s =? "sqrt")%string then Ok (Some CMSqrt)
                    else Err ValueErr
  | None, None => Ok None
  end.

(** encoder.py:708-719, setter of handle_unknown: [true] for "error". [val in {...}] raises
    TypeError on values which cannot be hashed; this is not distinguished here. *)
Definition check_handle_unknown (v : pyval A) : res bool :=
  match as_str v with
  | Some s => if (s =? "error")%string then Ok true
              else if (s =? "consider_missing")%string then Ok false
              else Err ValueErr
  | None => Err ValueErr
  end.

(** encoder.py:118-137. [is_categorical] always is None or an array of booleans here. *)
Definition encoder_init (max_bins subsample : pyval A) (is_categorical : option (list bool)) (cat_min_categories handle_unknown : pyval A)
  : res (config) :=
  let* mb := check_max_bins max_bins in
  let* ss := check_subsample subsample in
  let* cm := check_cat_min cat_min_categories in
  let* hu := check_handle_unknown handle_unknown in
  Ok (mkConfig mb ss is_categorical cm hu).

(** *** fit of a forest *)

(** The parameters of a forest that concern its encoder. They have no setter
    (forest.py:223-228), so that the values are checked by the encoder. *)
Record settings : Type := mkSettings {
  st_subsample : pyval A;
  st_cat_min : pyval A;
  st_handle_unknown : pyval A;
  st_categorical_features : cat_features
}.

(** forest.py:301-302: [if categorical_features is not None: self.categorical_features = ...]. *)
Definition store_categorical (st : settings) (cf : cat_features) : settings :=
  match cf with
  | CFNone => st
  | _ => mkSettings (st_subsample st) (st_cat_min st) (st_handle_unknown st) cf
  end.

(** forest.py:362-372: the encoder fitted by [fit(X, y, categorical_features=cf)], with its
    parameters. [st] is the state after [store_categorical]. *)
Definition encode_fit (st : settings) (max_bins : Z) (X : xdata V NM) (cf : cat_features) : res (config * encoder V) :=
  let* is_categorical := get_is_categorical cf (snd (shape V NM X)) in
  let* c := encoder_init (PyInt max_bins) (st_subsample st) is_categorical (st_cat_min st) (st_handle_unknown st) in
  let '(e, r) := fit V NM EE c (new_encoder V) X in
  let* _ := r in
  Ok (c, e).
Definition forest_encode (st : settings) (max_bins : Z) (X : xdata V NM) (cf : cat_features) : settings * res (config * encoder V) :=
  let st := store_categorical st cf in
  (st, encode_fit st max_bins X cf).

(** What is given to the forests: a well-formed table, with different names for the columns
    of a data frame (see [data_ok] and [clean] in S_Encoder.v), and the argument
    categorical_features of fit, which the other methods do not have. *)
Record table : Type := mkTable {
  tb_X : xdata V NM;
  tb_ok : data_ok V tb_X;
  tb_clean : clean V tb_X;
  tb_cf : cat_features
}.

(** The encoder as the forests of M_Forest.v use it: forest.py:362-380 for fit and 472-648
    for the methods which call [self._encoder.transform(X)]. *)
Definition forest_encoding (st : settings) : encoding table := {|
  ec_enc := config * encoder V;
  ec_shape := fun t => shape V NM (tb_X t);
  ec_fit := fun mb t => snd (forest_encode st mb (tb_X t) (tb_cf t));
  ec_cats := fun ce => match e_cols V (snd ce) with Some cols => map (is_cat V) cols | None => [] end;
  ec_transform := fun ce t => transform V NM nm_eqb EE (fst ce) (snd ce) (tb_X t)
|}.
End Glue.

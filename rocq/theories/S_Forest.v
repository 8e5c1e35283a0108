(** * Specification: what the forests rely on

    The hypotheses of the theorems about whole forests: what they get from the encoder of
    the features and from numpy. *)

Require Import List Arith NArith ZArith.
Require Import Verif.Base Verif.Num Verif.M_Bitarray Verif.M_Utils Verif.M_Context Verif.M_Forest
  Verif.S_Fit Verif.S_Object Verif.T_Bootstrap Verif.T_Params.
Import ListNotations.

(** The encoder has one categorical flag for each column, and packs one row of bins for each
    row of its input (see C01 to C08). *)
Record good_encoding {D : Type} (EC : encoding D) : Prop := {
  gk_cats : forall mb X enc, ec_fit EC mb X = Ok enc -> length (ec_cats EC enc) = snd (ec_shape EC X);
  gk_columns : forall mb X enc, ec_fit EC mb X = Ok enc -> 1 <= snd (ec_shape EC X);
  gk_packed : forall mb X enc X' fb, ec_fit EC mb X = Ok enc -> ec_transform EC enc X' = Ok fb ->
    packed fb /\ allocated fb /\ fb_n_samples fb = fst (ec_shape EC X') /\ fb_n_features fb = snd (ec_shape EC X)
}.

(** numpy's generators draw in range, and the conversions of [max_features] do not exceed
    their argument (see C16); [float x] means that [x] is a value of the type float. *)
Record good_menv {A : arith} {E : env A} (float : num A -> Prop) (ME : menv E) : Prop := {
  gm_draws : in_range_draws (me_randint ME);
  gm_seeds : forall rs n, length (me_seeds ME rs n) = n;
  gm_conv : forall n, 1 <= n -> good_conversions float ME n
}.

(** The integer parameters are in the ranges the setters enforce (see C42). *)
Record legal {A : arith} {L D : Type} {EC : encoding D} {P Y : Type} (float : num A -> Prop) (o : fobj A L EC P Y) : Prop := {
  lg_trees : (1 <= fo_n_estimators o)%Z;
  lg_split : (2 <= fo_min_samples_split o)%Z;
  lg_leaf : (1 <= fo_min_samples_leaf o)%Z;
  lg_mf : match fo_max_features o with
          | MFInt z => (1 <= z)%Z
          | MFFloat x => float x /\ altb a1 x = false /\ aleb x a0 = false
          | _ => True
          end
}.

(** [leb] is a total order on the labels. *)
Record total_order {L : Type} (leb : L -> L -> bool) : Prop := {
  to_antisym : forall x y, leb x y = true -> leb y x = true -> x = y;
  to_trans : forall x y z, leb x y = true -> leb y z = true -> leb x z = true;
  to_total : forall x y, leb x y = true \/ leb y x = true
}.

(** With a categorical column, the default strategy "binary" needs two classes. *)
Definition enough_classes {A : arith} {L D : Type} (leb : L -> L -> bool) {EC : encoding D} (o : clf_forest A L EC) (X : D) (y : list L) : Prop :=
  forall enc, ec_fit EC (fo_max_bins o) X = Ok enc -> In true (ec_cats EC enc) -> fo_strategy o = BinaryMod ->
  2 <= length (uniq leb y).

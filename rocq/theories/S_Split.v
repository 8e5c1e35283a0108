(** * Specification: the cuts of a node and their gain (exact arithmetic) *)

Require Import List Arith NArith Reals Sorted.
Require Import Verif.Base Verif.Num Verif.M_Bitarray Verif.M_Utils Verif.M_Context Verif.M_Split Verif.S_Fit Verif.S_Node
  Verif.S_Impurity.
Import ListNotations.

(** A cut of feature [j] is a set of bins: the samples whose bin is in the set go left. *)
Definition side (fb : fba) (j : nat) (left_bins : nat -> bool) (l : list nat) : list nat :=
  filter (fun i => left_bins (bin_of fb i j)) l.
Definition other (fb : fba) (j : nat) (left_bins : nat -> bool) (l : list nat) : list nat :=
  filter (fun i => negb (left_bins (bin_of fb i j))) l.

(** Both sides are large enough. *)
Definition admissible_cut (fb : fba) (min_leaf : nat) (aggregation : bool) (train valid : list nat)
  (j : nat) (left_bins : nat -> bool) : Prop :=
  min_leaf <= length (side fb j left_bins train) /\ min_leaf <= length (other fb j left_bins train) /\
  (aggregation = true ->
     min_leaf <= length (side fb j left_bins valid) /\ min_leaf <= length (other fb j left_bins valid)).

(** Bin [b] contains a sample of [l]. *)
Definition bin_present (fb : fba) (j : nat) (l : list nat) (b : nat) : Prop :=
  exists i, In i l /\ bin_of fb i j = b.

(** The bins of the node, each once, by increasing value [v]. *)
Definition sorted_bins (fb : fba) (j : nat) (l : list nat) (v : nat -> R) (order : list nat) : Prop :=
  NoDup order /\ (forall b, In b order <-> bin_present fb j l b) /\
  StronglySorted (fun b b' => (v b <= v b')%R) order.

(** The cut that sends the bins of a list to the left. *)
Definition bins_in (p : list nat) : nat -> bool := fun b => existsb (Nat.eqb b) p.

(** [argsort] sorts. *)
Definition sorts (E : env R_arith) : Prop :=
  forall l : list R, StronglySorted Rle (map (fun i => nth i l 0%R) (argsort E l)).

Definition positive_weights (weights : list R) : Prop := forall w, In w weights -> (0 < w)%R.

Section Gain.
Context (fb : fba) (weights : list R).
Notation total := (@total_weight R_arith weights).

(** Weighted decrease of impurity, up to the impurity of the node, which is the same for
    all the cuts. *)
Definition split_gain (impurity : list nat -> R) (L Q : list nat) : R :=
  (- total L * impurity L - total Q * impurity Q)%R.

(** Classification. *)
Definition class_weights (K : nat) (y : list nat) (l : list nat) : list R :=
  map (fun k => total (of_class y k l)) (seq 0 K).
Definition clf_impurity (crit : criterion) (K : nat) (y : list nat) (l : list nat) : R :=
  match crit with Gini => gini (class_weights K y l) | Entropy => entropy (class_weights K y l) end.
Definition class_proportion (y : list nat) (train : list nat) (j k b : nat) : R :=
  (total (of_class y k (samples_in fb train j b)) / total (samples_in fb train j b))%R.

(** Regression. *)
Definition reg_impurity (y : list R) (l : list nat) : R :=
  variance (map (fun i => (@weight R_arith weights i, nth i y 0%R)) l).
Definition bin_label_sum (y : list R) (train : list nat) (j b : nat) : R :=
  @label_sum R_arith weights y (samples_in fb train j b).

End Gain.

(** ** The split returned for a node *)
Section Result.
Context {E : env R_arith} {tk : task R_arith E}.
Context (fb : fba) (cats : list bool) (weights : list R) (min_leaf : nat) (aggregation : bool).
Context (features train valid : list nat) (impurity : list nat -> R) (sp : split tk).

(** A found split: its test is an admissible cut of one of the tried features, and the
    gain, impurities, weights and counts it announces are those of this cut. *)
Definition describes_its_cut : Prop :=
  let j := sp_feature sp in
  In j features /\ nth_error cats j = Some (sp_is_cat sp) /\
  exists cut : nat -> bool,
    (forall b, goes_left tk sp b = Ok (cut b)) /\
    (if sp_is_cat sp then forall b, cut b = true -> bin_present fb j train b
     else exists t, bin_present fb j train t /\ forall b, cut b = (b <=? t)) /\
    admissible_cut fb min_leaf aggregation train valid j cut /\
    sp_gain sp = Some (split_gain weights impurity (side fb j cut train) (other fb j cut train)) /\
    sp_imp_left sp = impurity (side fb j cut train) /\ sp_imp_right sp = impurity (other fb j cut train) /\
    sp_w_train_left sp = @total_weight R_arith weights (side fb j cut train) /\
    sp_w_train_right sp = @total_weight R_arith weights (other fb j cut train) /\
    sp_n_train_left sp = length (side fb j cut train) /\ sp_n_train_right sp = length (other fb j cut train) /\
    (aggregation = true ->
       sp_n_valid_left sp = length (side fb j cut valid) /\ sp_n_valid_right sp = length (other fb j cut valid)).

(** The split found is at least as good as this cut, if the cut is admissible. *)
Definition at_least_as_good (j : nat) (cut : nat -> bool) : Prop :=
  admissible_cut fb min_leaf aggregation train valid j cut ->
  sp_found sp = true /\ exists g, sp_gain sp = Some g /\
    (split_gain weights impurity (side fb j cut train) (other fb j cut train) <= g)%R.
End Result.

(** The classes whose proportions order the bins of a categorical feature. *)
Definition ordering_classes (st : cat_strategy) (n_classes : nat) (ks : list nat) : Prop :=
  match st with
  | AllMods => ks = seq 0 n_classes
  | BinaryMod => ks = [1]
  | RandomMod => exists k, k < n_classes /\ ks = [k]
  end.

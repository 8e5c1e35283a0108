(** * C35 in single precision, without aggregation

    T_Single.v shows how aggregation takes a regressor out of the range of its labels in
    single precision. Without aggregation a prediction is the weighted mean of the labels of
    a leaf, and rounding alone is enough: four rows with the same label and the weight 3,
    and a prediction that is smaller than the label. No function of the C library is called.

    The code adds the products [sample_weight * label], which are single precision, in
    double precision (_node.py:803-849), and stores the quotient in single precision. The
    sums below are exact in both, and so is the double of the quotient up to its last
    rounding: single precision throughout gives the same prediction. *)

Require Import List Arith Lia NArith Bool SpecFloat ZArith.
Require Import Verif.Base Verif.Num Verif.M_Bitarray Verif.P_Bitarray Verif.M_Utils Verif.M_Impurity
  Verif.M_Context Verif.M_Node Verif.M_Split Verif.M_Tree Verif.M_Grow Verif.S_Fit Verif.P_Fit Verif.P_Libm Verif.T_Single.
Import ListNotations.
Local Open Scope nat_scope.
Local Open Scope list_scope.

Section Data.
Context (lnf expf : spec_float -> spec_float).
Let A : arith := F32 lnf expf.
(** The label is [11184814 / 2^24], a little more than two thirds. *)
Definition round_label : num (F32 lnf expf) := S754_finite false 11184814 (-24).
Definition round_labels : list (num A) := repeat round_label 4.
Definition round_weights : list (num A) := repeat (single lnf expf 3) 4.
(** [aggregation = False]. *)
Definition round_params : @tree_params A := @mkTP A 1 2 1 100%N false (single lnf expf 1) [false].
Definition round_fit := tree_fit (reg_task (single_env lnf expf)) round_params single_fb
  round_labels single_train single_valid round_weights 0.
Definition round_pred (g : gstate (reg_task (single_env lnf expf))) :=
  predict_one (A := F32 lnf expf) mix_num (g_tree g) single_fb false (single lnf expf 1) 1.
End Data.

Lemma round_below : forall lnf expf,
  after (round_fit lnf expf) (round_pred lnf expf) (fun v => SFltb v (S754_finite false 11184814 (-24))) = true.
Proof. intros. vm_compute. reflexivity. Qed.

Lemma round_fit_valid : forall lnf expf,
  valid_fit (round_params lnf expf) single_fb (round_labels lnf expf) single_train single_valid (round_weights lnf expf).
Proof.
  intros. destruct (single_fit_valid lnf expf (round_labels lnf expf) (round_weights lnf expf) eq_refl eq_refl).
  constructor; assumption.
Qed.

(** Every label is the same number, every weight is positive, and the prediction is below
    that number. *)
Theorem C35_constant_labels_refuted : forall lnf expf,
  good_env (single_env lnf expf) /\
  valid_fit (round_params lnf expf) single_fb (round_labels lnf expf) single_train single_valid (round_weights lnf expf) /\
  (forall w, In w (round_weights lnf expf) -> altb a0 w = true) /\
  (forall y, In y (round_labels lnf expf) -> y = S754_finite false 11184814 (-24)) /\
  exists tc g v,
    round_fit lnf expf = Ok (tc, g) /\
    predict_one mix_num (g_tree g) single_fb false (single lnf expf 1) 1 = Ok v /\
    SFltb v (S754_finite false 11184814 (-24)) = true.
Proof.
  intros lnf expf. split; [apply single_env_good|]. split; [apply round_fit_valid|].
  split; [intros w Hw; apply repeat_spec in Hw; subst w; reflexivity|].
  split; [intros y Hy; apply repeat_spec in Hy; exact Hy|].
  destruct (after_spec _ _ _ (round_below lnf expf)) as (tc & g & v & E1 & E2 & E3).
  exists tc, g, v. split; [exact E1|]. split; [exact E2|exact E3].
Qed.
Print Assumptions C35_constant_labels_refuted.

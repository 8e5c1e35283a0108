(** * C20: impurities and gains

    Over the reals, the impurity functions compute the textbook Gini index, entropy and
    variance; these are non-negative and zero exactly for pure nodes; maximising the proxy
    is maximising the information gain; the gain of a split is never negative. *)

Require Import List Arith Lia Reals Lra.
Require Import Verif.Base Verif.Num Verif.M_Impurity Verif.S_Impurity Verif.P_Impurity.
Import ListNotations.
Local Open Scope R_scope.
Local Open Scope list_scope.

(** The value at a node. The code is given the number of classes, the total weight and the
    weight of each class. *)
Theorem C20_gini_value : forall y : list R, 0 < Rsum y ->
  @gini_node R_arith (length y) (Rsum y) y = Ok (gini y).
Proof. intros; apply gini_node_R; lra. Qed.
Print Assumptions C20_gini_value.

Theorem C20_entropy_value : forall y : list R, 0 < Rsum y ->
  @entropy_node R_arith (length y) (Rsum y) y = Ok (entropy y).
Proof. exact entropy_node_R. Qed.
Print Assumptions C20_entropy_value.

Theorem C20_mse_value : forall l : list (R * R), 0 < wtot l ->
  @mse_node R_arith (wtot l) (wysum l) (wysq l) = Ok (variance l).
Proof. intros; apply mse_node_R; lra. Qed.
Print Assumptions C20_mse_value.

(** The values at the two children, computed together by the code. *)
Theorem C20_childs_values :
  (forall yl yr : list R, 0 < Rsum yl -> 0 < Rsum yr -> length yr = length yl ->
    @gini_childs R_arith (length yl) (Rsum yl) (Rsum yr) yl yr = Ok (gini yl, gini yr) /\
    @entropy_childs R_arith (length yl) (Rsum yl) (Rsum yr) yl yr = Ok (entropy yl, entropy yr)) /\
  (forall l m : list (R * R), 0 < wtot l -> 0 < wtot m ->
    @mse_childs R_arith (wtot l) (wtot m) (wysum l) (wysum m) (wysq l) (wysq m) =
      Ok (variance l, variance m)).
Proof.
  split.
  - intros yl yr Hl Hr Hlen. split.
    + apply gini_childs_R; auto; lra.
    + apply entropy_childs_R; auto.
  - intros l m Hl Hm. unfold mse_childs. rewrite !mse_node_R by lra. reflexivity.
Qed.
Print Assumptions C20_childs_values.

(** A node without weight stops the Gini and variance computations with
    ZeroDivisionError. *)
Theorem C20_zero_weight_raises : forall (y : list R) (a b : R),
  @gini_node R_arith (length y) 0 y = Err ZeroDiv /\ @mse_node R_arith 0 a b = Err ZeroDiv.
Proof.
  intros y a b. split.
  - unfold gini_node. rewrite sum_squares_R. cbn [bind].
    replace (@amul R_arith 0 0) with 0 by (simpl; ring). rewrite divM_R0. reflexivity.
  - unfold mse_node. rewrite divM_R0. reflexivity.
Qed.
Print Assumptions C20_zero_weight_raises.

Theorem C20_nonneg_zero_iff_pure : forall y : list R, nonneg y -> 0 < Rsum y ->
  (0 <= gini y /\ 0 <= entropy y) /\ (gini y = 0 <-> pure y) /\ (entropy y = 0 <-> pure y).
Proof.
  intros y Hn Hs. split; [split|split].
  - apply gini_nonneg; auto.
  - apply entropy_nonneg; auto.
  - apply gini_zero_iff; auto.
  - apply entropy_zero_iff; auto.
Qed.
Print Assumptions C20_nonneg_zero_iff_pure.

(** Zero variance means that all labels of positive weight are equal. *)
Theorem C20_mse_nonneg_zero_iff_constant : forall l : list (R * R),
  (forall p, In p l -> 0 <= fst p) -> 0 < wtot l ->
  0 <= variance l /\
  (variance l = 0 <-> forall p q, In p l -> In q l -> 0 < fst p -> 0 < fst q -> snd p = snd q).
Proof.
  intros l Hn Hw. split; [apply variance_nonneg; auto | apply variance_zero_iff; auto].
Qed.
Print Assumptions C20_mse_nonneg_zero_iff_constant.

(** For two splits of the same node the proxy and the information gain give the same
    order. *)
Theorem C20_gain_order : forall w wp ip wl wr il ir wl' wr' il' ir' g g' : R,
  0 < w -> 0 < wp ->
  @information_gain R_arith w wp wl wr ip il ir = Ok g ->
  @information_gain R_arith w wp wl' wr' ip il' ir' = Ok g' ->
  (@information_gain_proxy R_arith il ir wl wr < @information_gain_proxy R_arith il' ir' wl' wr'
   <-> g < g').
Proof.
  intros w wp ip wl wr il ir wl' wr' il' ir' g g' Hw Hp H H'.
  rewrite information_gain_R in H, H' by auto. inversion H; inversion H'; subst.
  unfold information_gain_proxy. simpl.
  assert (Hi : 0 < / w) by (apply Rinv_0_lt_compat; auto). unfold Rdiv. split; intro Hlt.
  - apply Rmult_lt_compat_r; [auto|]. lra.
  - apply Rmult_lt_reg_r in Hlt; [|auto]. lra.
Qed.
Print Assumptions C20_gain_order.

(** The gain of a split is not negative: Gini, entropy and variance. *)
Theorem C20_gain_nonneg :
  (forall (yl yr : list R) (w : R), length yl = length yr -> nonneg yl -> nonneg yr ->
    0 < Rsum yl -> 0 < Rsum yr -> 0 < w ->
    (exists g, @information_gain R_arith w (Rsum (vadd yl yr)) (Rsum yl) (Rsum yr)
                 (gini (vadd yl yr)) (gini yl) (gini yr) = Ok g /\ 0 <= g) /\
    (exists g, @information_gain R_arith w (Rsum (vadd yl yr)) (Rsum yl) (Rsum yr)
                 (entropy (vadd yl yr)) (entropy yl) (entropy yr) = Ok g /\ 0 <= g)) /\
  (forall (l m : list (R * R)) (w : R), 0 < wtot l -> 0 < wtot m -> 0 < w ->
    exists g, @information_gain R_arith w (wtot (l ++ m)) (wtot l) (wtot m)
                (variance (l ++ m)) (variance l) (variance m) = Ok g /\ 0 <= g).
Proof.
  assert (Hgen : forall w a, 0 < w -> 0 <= a -> 0 <= a / w).
  { intros w a Hw Ha. apply Rmult_le_pos; auto. left. apply Rinv_0_lt_compat; auto. }
  split.
  - intros yl yr w Hlen Hnl Hnr Hl Hr Hw.
    assert (Hs : 0 < Rsum (vadd yl yr)) by (rewrite Rsum_vadd; auto; lra).
    split; rewrite information_gain_R by auto; (eexists; split; [reflexivity|]);
      apply Hgen; auto; unfold information_gain_proxy; simpl.
    + pose proof (gini_concave yl yr Hlen Hl Hr). lra.
    + pose proof (entropy_concave yl yr Hlen Hnl Hnr Hl Hr). lra.
  - intros l m w Hl Hm Hw.
    assert (Hs : 0 < wtot (l ++ m)) by (rewrite wtot_app; lra).
    rewrite information_gain_R by auto. eexists; split; [reflexivity|].
    apply Hgen; auto. unfold information_gain_proxy; simpl.
    pose proof (variance_concave l m Hl Hm). lra.
Qed.
Print Assumptions C20_gain_nonneg.

(** Concrete nodes meeting the hypotheses: two classes of weights 3 and 1 split into (3, 0)
    and (0, 1). *)
Example C20_example : nonneg [3; 1] /\ 0 < Rsum [3; 1] /\ gini [3; 1] = 3 / 8 /\
  ~ pure [3; 1] /\ vadd [3; 0] [0; 1] = [3; 1] /\ gini [3; 0] = 0 /\
  (@information_gain R_arith 4 4 3 1 (3 / 8) 0 0 = Ok (3 / 8)) /\
  variance [(1, 2); (1, 4)] = 1.
Proof.
  split; [|split; [|split; [|split; [|split; [|split; [|split]]]]]].
  - intros x [<-|[<-|[]]]; lra.
  - simpl; lra.
  - unfold gini, freq. simpl. field.
  - intro H. specialize (H 0%nat 1%nat). simpl in H. assert (0%nat = 1%nat) by (apply H; lra). discriminate.
  - simpl. repeat f_equal; lra.
  - unfold gini, freq. simpl. field.
  - rewrite information_gain_R by lra. unfold information_gain_proxy. simpl. f_equal. lra.
  - unfold variance, wmean, wysum, wtot, sq. simpl. field.
Qed.

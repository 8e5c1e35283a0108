(** * C23: categorical splits are globally optimal for two classes and the Gini index

    Exact arithmetic, positive weights, [min_samples_leaf = 1] and no aggregation: then every
    cut with two non-empty sides is admissible, and none of the [2^k] subsets of the bins
    gives a better gain than the split found. *)

Require Import List Arith Lia NArith Reals Lra Sorted Permutation QArith.
Require Import Verif.Base Verif.Num Verif.M_Bitarray Verif.P_Bitarray Verif.M_Utils Verif.M_Impurity
  Verif.M_Context Verif.M_Node Verif.M_Split Verif.M_Grow Verif.P_Utils Verif.P_List Verif.P_Task Verif.P_Node
  Verif.P_Bins Verif.P_Scan Verif.P_Split Verif.P_Find Verif.S_Impurity Verif.P_Impurity
  Verif.S_Fit Verif.P_Fit Verif.S_Node Verif.S_Split Verif.P_SplitR Verif.P_SplitTasks Verif.P_Cuts
  Verif.P_Gini2 Verif.T_Split Verif.Ex_Data Verif.Ex_Valid Verif.Ex_R.
Import ListNotations.
Local Open Scope nat_scope.
Local Open Scope list_scope.
Local Open Scope res_scope.

Lemma two_classes : forall (f : nat -> R) (y : list nat) l, (forall i, In i l -> nth i y 0 < 2) ->
  Rsum (map f l) = (Rsum (map f (filter (fun i => nth i y 0%nat =? 0) l)) + Rsum (map f (filter (fun i => nth i y 0%nat =? 1) l)))%R.
Proof.
  intros f y l. induction l as [|i l IH]; intros Hl; simpl; [lra|].
  rewrite IH by (intros x Hx; apply Hl; simpl; auto).
  pose proof (Hl i (or_introl eq_refl)) as H3. destruct (nth i y 0) as [|[|n]]; simpl; try lra. lia.
Qed.

Section Cost.
Context (fb : fba) (y : list nat) (weights : list R) (j : nat) (train order : list nat).
Notation total := (@total_weight R_arith weights).

Definition classw (k b : nat) : R := total (of_class y k (samples_in fb train j b)).

Lemma total_R : forall l, total l = Rsum (map (@weight R_arith weights) l).
Proof. intro l. unfold total_weight. apply asum_R. Qed.

Lemma class_side : forall k (cut : nat -> bool), NoDup order -> (forall b, In b order <-> bin_present fb j train b) ->
  total (of_class y k (side fb j cut train)) = S1 (classw k) (filter cut order).
Proof.
  intros k cut Hn Hp. unfold S1, classw.
  rewrite total_R.
  assert (EC : map (fun b => total (of_class y k (samples_in fb train j b))) (filter cut order) =
    map (fun b => Rsum (map (@weight R_arith weights) (filter (fun i => bin_of fb i j =? b) (of_class y k train)))) (filter cut order)).
  { apply map_ext. intro b. rewrite total_R. f_equal. f_equal. unfold of_class, samples_in.
    clear Hn Hp. induction train as [|i l IH]; auto. cbn [filter].
    destruct (bin_of fb i j =? b) eqn:E1; cbn [filter]; destruct (nth i y 0 =? k) eqn:E2; cbn [filter]; rewrite ?E1, ?IH; auto. }
  etransitivity; [|symmetry; apply f_equal; exact EC].
  etransitivity; [|symmetry; apply (Rsum_bins (@weight R_arith weights) (fun i => bin_of fb i j) (of_class y k train) (filter cut order)); apply NoDup_filter; auto].
  f_equal. f_equal. unfold of_class, side.
  assert (G : forall l, incl l train -> filter (fun i => nth i y 0 =? k) (filter (fun i => cut (bin_of fb i j)) l) =
     filter (fun i => mem_bin (filter cut order) (bin_of fb i j)) (filter (fun i => nth i y 0 =? k) l)).
  { induction l as [|i l IH]; intros Hl; auto. cbn [filter].
    assert (Hm : mem_bin (filter cut order) (bin_of fb i j) = cut (bin_of fb i j)).
    { destruct (cut (bin_of fb i j)) eqn:Ec.
      - apply mem_bin_in. apply filter_In. split; auto. apply Hp. exists i. split; auto. apply Hl. simpl. auto.
      - destruct (mem_bin (filter cut order) (bin_of fb i j)) eqn:Em; auto. apply mem_bin_in in Em.
        apply filter_In in Em. destruct Em. congruence. }
    assert (Hl' : incl l train) by (intros x Hx; apply Hl; simpl; auto).
    destruct (cut (bin_of fb i j)) eqn:E1, (nth i y 0 =? k) eqn:E2; cbn [filter]; rewrite ?E2, ?Hm, ?IH; auto. }
  apply G. apply incl_refl.
Qed.

Lemma other_side : forall (cut : nat -> bool) l, other fb j cut l = side fb j (fun b => negb (cut b)) l.
Proof. reflexivity. Qed.

(** Weighted Gini index of a node with two classes. *)
Lemma weighted_gini : forall l, (forall i, In i l -> nth i y 0 < 2) ->
  (total l * clf_impurity weights Gini 2 y l = gf (total (of_class y 0 l)) (total (of_class y 1 l)))%R.
Proof.
  intros l Hl.
  assert (Ht : total l = (total (of_class y 0 l) + total (of_class y 1 l))%R).
  { rewrite !total_R. apply two_classes. auto. }
  unfold clf_impurity, class_weights, gini, freq, gf. simpl.
  set (a := total (of_class y 0 l)) in *. set (b := total (of_class y 1 l)) in *.
  change (@total_weight R_arith weights l) with (total l). rewrite Ht.
  destruct (Req_dec (a + b) 0) as [H0|H0].
  - rewrite H0. replace (2 * a * b / 0)%R with (2 * a * b * / 0)%R by reflexivity.
    rewrite Rinv_0. lra.
  - replace (a + (b + 0))%R with (a + b)%R by lra. field. auto.
Qed.
End Cost.

Theorem C23_two_classes_gini : forall (E : env R_arith) dirichlet st p fb y train0 valid0 weights tc,
  good_env E -> sorts E -> valid_fit p fb y train0 valid0 weights -> positive_weights weights ->
  valid_labels 2 st (tp_is_categorical p) y -> (0 <= dirichlet)%R ->
  tp_min_samples_leaf p = 1 -> tp_aggregation p = false ->
  init_tree_context (clf_task E 2 dirichlet Gini st) p fb y weights = Ok tc ->
  forall features train valid s, features <> [] -> (forall j, In j features -> j < fb_n_features fb) ->
  train <> [] -> (forall i, In i train -> i < fb_n_samples fb) -> (forall i, In i valid -> i < fb_n_samples fb) ->
  exists nc sp s',
    node_stats (clf_task E 2 dirichlet Gini st) tc features train valid = Ok nc /\
    find_node_split (clf_task E 2 dirichlet Gini st) tc nc s = Ok (sp, s') /\
    (* for every tried categorical feature and every subset of its bins with two non-empty sides *)
    forall j cut, In j features -> nth_error (tp_is_categorical p) j = Some true ->
      side fb j cut train <> [] -> other fb j cut train <> [] ->
      sp_found sp = true /\ exists g, sp_gain sp = Some g /\
      (split_gain weights (clf_impurity weights Gini 2 y) (side fb j cut train) (other fb j cut train) <= g)%R.
Proof.
  intros E d st p fb y train0 valid0 weights tc HE HS V HW HL Hd Hmsl Hagg Htc features train valid s Hne Hf Hnt Ht Hv.
  destruct (C18_classification E 2 d Gini st p fb y train0 valid0 weights tc HE HS V HW HL Hd Htc features train valid s
    Hne Hf Hnt Ht Hv) as (nc & sp & s' & H1 & H2 & _ & _ & H5); [congruence|].
  exists nc, sp, s'. split; auto. split; auto. intros j cut Hin Hj HSd HOd.
  pose proof (vf_y _ _ _ _ _ _ V) as Hly. pose proof (vf_w _ _ _ _ _ _ V) as Hlw.
  assert (Hlab : forall i, In i train -> nth i y 0 < 2).
  { intros i Hi. apply (vl_range _ _ _ _ HL). apply nth_In. rewrite Hly. auto. }
  assert (Hwt : forall i, In i train -> (0 < @weight R_arith weights i)%R).
  { intros i Hi. apply HW. apply nth_In. rewrite Hlw. auto. }
  (* two bins *)
  destruct (side fb j cut train) as [|i1 l1] eqn:E1; [congruence|].
  destruct (other fb j cut train) as [|i2 l2] eqn:E2; [congruence|].
  assert (I1 : In i1 (side fb j cut train)) by (rewrite E1; simpl; auto).
  assert (I2 : In i2 (other fb j cut train)) by (rewrite E2; simpl; auto).
  rewrite <- E1, <- E2 in *. clear E1 E2 l1 l2 HSd HOd.
  apply filter_In in I1. destruct I1 as [I1 C1]. apply filter_In in I2. destruct I2 as [I2 C2]. apply Bool.negb_true_iff in C2.
  destruct (H5 j Hin Hj) as (ks & Hks & Hord).
  { exists (bin_of fb i1 j). split; [exists i1; auto|]. exists (bin_of fb i2 j). split; [exists i2; auto|]. congruence. }
  assert (Hk : exists k, In k ks /\ k < 2).
  { destruct st; cbn [ordering_classes] in Hks.
    - subst ks. exists 0. split; [simpl; auto|lia].
    - subst ks. exists 1. split; [simpl; auto|lia].
    - destruct Hks as (k & Hk & ->). exists k. split; [simpl; auto|auto]. }
  destruct Hk as (k & Hkin & Hk2). destruct (Hord k Hkin) as (order & (Hnd & Hpres & Hsort) & Hbest).
  set (u := classw fb y weights j train 0). set (v := classw fb y weights j train 1).
  assert (Hnn : forall k b, (0 <= classw fb y weights j train k b)%R).
  { intros k0 b. unfold classw. rewrite total_R. apply Rsum_nonneg. intros x Hx. apply in_map_iff in Hx.
    destruct Hx as [i [<- Hi]]. apply filter_In in Hi. destruct Hi as [Hi _]. apply filter_In in Hi. destruct Hi as [Hi _].
    apply Rlt_le. auto. }
  assert (Htot : forall b, @total_weight R_arith weights (samples_in fb train j b) = (u b + v b)%R).
  { intros b. unfold u, v, classw. rewrite !total_R. apply two_classes.
    intros i Hi. apply filter_In in Hi. apply Hlab. tauto. }
  assert (Hpos : forall b, In b order -> (0 < u b + v b)%R).
  { intros b Hb. rewrite <- Htot, total_R. apply Rsum_pos.
    - apply Hpres in Hb. destruct Hb as [i [Hi Eb]]. intro Hn.
      assert (In i (samples_in fb train j b)) by (apply filter_In; split; auto; apply Nat.eqb_eq; auto).
      rewrite Hn in H. destruct H.
    - intros i Hi. apply filter_In in Hi. destruct Hi. auto. }
  assert (Hw : (forall b, In b order -> class_proportion fb weights y train j k b = (v b / (u b + v b))%R) \/
               (forall b, In b order -> class_proportion fb weights y train j k b = (u b / (u b + v b))%R)).
  { destruct k as [|[|k]]; [right|left|lia]; intros b _; unfold class_proportion; rewrite Htot; reflexivity. }
  destruct (gini2_best_prefix u v order (fun b _ => Hnn 0 b) (fun b _ => Hnn 1 b) Hpos
              (class_proportion fb weights y train j k) Hw Hsort cut) as (q & r & Eo & Hq & Hr & Hc).
  { intro Hn. assert (Hb : In (bin_of fb i1 j) (filter cut order)).
    { apply filter_In. split; auto. apply Hpres. exists i1. auto. }
    rewrite Hn in Hb. destruct Hb. }
  { intro Hn. assert (Hb : In (bin_of fb i2 j) (filter (fun b => negb (cut b)) order)).
    { apply filter_In. split; [apply Hpres; exists i2; auto|]. rewrite C2. auto. }
    rewrite Hn in Hb. destruct Hb. }
  assert (Hgain : forall cut0, split_gain weights (clf_impurity weights Gini 2 y) (side fb j cut0 train) (other fb j cut0 train) =
     (- cost u v (filter cut0 order) (filter (fun b => negb (cut0 b)) order))%R).
  { intro cut0. unfold split_gain, cost. unfold u, v.
    pose proof (weighted_gini y weights (side fb j cut0 train)) as G1.
    pose proof (weighted_gini y weights (other fb j cut0 train)) as G2.
    rewrite <- (class_side fb y weights j train order 0 cut0 Hnd Hpres).
    rewrite <- (class_side fb y weights j train order 1 cut0 Hnd Hpres).
    rewrite <- (class_side fb y weights j train order 0 (fun b => negb (cut0 b)) Hnd Hpres).
    rewrite <- (class_side fb y weights j train order 1 (fun b => negb (cut0 b)) Hnd Hpres).
    rewrite <- !other_side.
    rewrite <- G1, <- G2.
    - lra.
    - intros i Hi. apply filter_In in Hi. apply Hlab. tauto.
    - intros i Hi. apply filter_In in Hi. apply Hlab. tauto. }
  assert (Hfq : filter (bins_in q) order = q /\ filter (fun b => negb (bins_in q b)) order = r).
  { rewrite Eo. apply filter_split.
    - intros b Hb. apply existsb_eqb. auto.
    - intros b Hb. destruct (bins_in q b) eqn:Eb; auto. apply existsb_eqb in Eb. rewrite Eo in Hnd. exfalso.
      clear - Hnd Eb Hb. induction q as [|x q IH]; [destruct Eb|]. simpl in Hnd. inversion Hnd; subst.
      destruct Eb as [->|Eb]; auto. apply H1. apply in_app_iff. auto. }
  destruct Hfq as [Hf1 Hf2].
  destruct (Hbest q r Eo) as [Hfd (g & Hg & Hle)].
  { split; [|split].
    - rewrite Hmsl. destruct q as [|b q]; [congruence|].
      assert (Hb : bin_present fb j train b) by (apply Hpres; rewrite Eo; simpl; auto).
      destruct Hb as [i [Hi Eb]].
      assert (Hin' : In i (side fb j (bins_in (b :: q)) train)).
      { apply filter_In. split; auto. rewrite Eb. apply existsb_eqb. simpl. auto. }
      destruct (side fb j (bins_in (b :: q)) train); [destruct Hin'|simpl; lia].
    - rewrite Hmsl. destruct r as [|b r]; [congruence|].
      assert (Hb : bin_present fb j train b) by (apply Hpres; rewrite Eo; apply in_elt).
      destruct Hb as [i [Hi Eb]].
      assert (Hin' : In i (other fb j (bins_in q) train)).
      { apply filter_In. split; auto. rewrite Eb.
        assert (Hb : In b (filter (fun b => negb (bins_in q b)) order)) by (rewrite Hf2; simpl; auto).
        apply filter_In in Hb. tauto. }
      destruct (other fb j (bins_in q) train); [destruct Hin'|simpl; lia].
    - rewrite Hagg. discriminate. }
  split; auto. exists g. split; auto.
  rewrite Hgain in Hle |- *. rewrite Hf1, Hf2 in Hle. lra.
Qed.
Print Assumptions C23_two_classes_gini.

(** The hypotheses are met: the example with the labels "2" merged into "1". *)
Definition ex2_labels : list nat := [0; 0; 1; 1; 1; 0; 1; 1].
Example C23_hypotheses : good_env env_R /\ sorts env_R /\
  valid_fit (exR_params false 2) ex_fb ex2_labels ex_train ex_valid exR_w /\ positive_weights exR_w /\
  valid_labels 2 BinaryMod (tp_is_categorical (exR_params false 2)) ex2_labels /\
  tp_min_samples_leaf (exR_params false 2) = 1 /\
  nth_error (tp_is_categorical (exR_params false 2)) 1 = Some true /\
  side ex_fb 1 (fun b => b =? 2) ex_train = [0; 3; 6] /\ other ex_fb 1 (fun b => b =? 2) ex_train = [2; 4].
Proof.
  split; [apply env_R_good|]. split; [apply env_R_sorts|]. split; [apply exR_valid_fit; [reflexivity|lia]|].
  split; [apply exR_positive|]. split.
  { constructor; [|intros; split; auto]. intros k H. unfold ex2_labels in H. simpl in H. lia. }
  split; [reflexivity|]. split; [reflexivity|]. split; reflexivity.
Qed.

(** ** Regression: the claim is false, the bins are sorted by sum and not by mean *)

(** Five samples: three of label 1 in category 0, one of label 2 in category 1, one of label
    1 in category 2. Separating category 1 from the others leaves no variance. *)
Definition exq_X : list (list N) := [[0]; [0]; [0]; [1]; [2]]%N.
Definition exq_fb : fba :=
  match array_to_bitarray (fun _ => 0%N) 1 exq_X with Ok fb => fb | Err _ => mkFba 0 0 [] [] [] [] [] [] end.
Definition exq_y : list (num QA) := [1; 1; 1; 2; 1]%Q.
Definition exq_w : list (num QA) := [1; 1; 1; 1; 1]%Q.
Definition exq_params : @tree_params QA := @mkTP QA 1 2 1 100%N false 1%Q [true].

(** Sum of the squared deviations from the mean, over the rationals. *)
Definition deviation (l : list nat) : Q :=
  let ys := map (fun i => nth i exq_y 0%Q) l in
  let mean := (fold_right Qplus 0 ys / inject_Z (Z.of_nat (length l)))%Q in
  fold_right Qplus 0%Q (map (fun x => (x - mean) * (x - mean))%Q ys).

Theorem C23_regression_refuted :
  exists (p : @tree_params QA) fb y weights train valid j cut,
  good_env env_Q /\ valid_fit p fb y train valid weights /\ tp_min_samples_leaf p = 1 /\ tp_aggregation p = false /\
  nth_error (tp_is_categorical p) j = Some true /\
  side fb j cut train <> [] /\ other fb j cut train <> [] /\
  (* the subset leaves no deviation at all, the split found leaves some: gains 0 and -1/2 *)
  deviation (side fb j cut train) == 0 /\ deviation (other fb j cut train) == 0 /\
  (let* tc := init_tree_context ex_reg p fb y weights in
   let* nc := node_stats ex_reg tc [j] train valid in
   let* ' (sp, s') := find_node_split ex_reg tc nc 0 in
   Ok (sp_found sp, sp_bins sp, sp_partition sp, sp_gain sp)) = Ok (true, [2; 1; 0], [1; 2], Some (- (1 # 2))%Q).
Proof.
  exists exq_params, exq_fb, exq_y, exq_w, [0; 1; 2; 3; 4], [], 0, (fun b => b =? 1).
  split; [apply ex_env_good|]. split.
  { destruct (array_to_bitarray_packed (fun _ => 0%N) 1 exq_X) as (fb & H1 & H2 & H3 & H4 & _).
    - discriminate.
    - intros row H. unfold exq_X in H. simpl in H. intuition (subst; reflexivity).
    - intros row x H Hx. unfold exq_X in H. simpl in H.
      repeat (destruct H as [<-|H]; [simpl in Hx; intuition (subst; reflexivity)|]). destruct H.
    - assert (Efb : exq_fb = fb) by (unfold exq_fb; rewrite H1; auto). rewrite Efb.
      constructor; rewrite ?H3, ?H4; auto; simpl; try lia. }
  split; [reflexivity|]. split; [reflexivity|]. split; [reflexivity|]. split; [discriminate|]. split; [discriminate|].
  split; [reflexivity|]. split; [reflexivity|]. vm_compute. reflexivity.
Qed.
Print Assumptions C23_regression_refuted.

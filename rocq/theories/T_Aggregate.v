(** * C33, C36: aggregated predictions and depths; C34, C35: ranges of the predictions of a tree *)

Require Import List Arith Lia NArith Reals Lra Permutation Sorted.
Require Import Verif.Base Verif.Num Verif.M_Bitarray Verif.P_Bitarray Verif.M_Utils Verif.M_Impurity
  Verif.M_Context Verif.M_Node Verif.M_Split Verif.M_Tree Verif.M_Grow
  Verif.P_Utils Verif.P_List Verif.P_Stack Verif.P_Task Verif.P_Node
  Verif.P_Bins Verif.P_Scan Verif.P_Split Verif.P_Find Verif.P_Indices Verif.P_Tree Verif.P_Grow
  Verif.P_Repr Verif.P_Route Verif.S_Impurity Verif.P_Impurity Verif.S_Fit Verif.P_Fit Verif.P_FitTree Verif.S_Node Verif.T_Node Verif.S_Split
  Verif.P_SplitR Verif.P_SplitTasks Verif.P_Cuts Verif.T_Utils Verif.S_Tree Verif.P_Nodes Verif.T_Grow Verif.T_GrowR
  Verif.S_Prune Verif.P_Prune Verif.T_Prune Verif.Ex_Data Verif.Ex_Valid Verif.Ex_R.
Import ListNotations.
Local Open Scope nat_scope.
Local Open Scope list_scope.
Local Open Scope res_scope.


(** ** Generic facts *)

Lemma zipM_add : forall (u v w : list R), zipM (@aadd R_arith) u v = Ok w ->
  length w = length u /\ length v = length u /\ (forall k, nth k w 0 = nth k u 0 + nth k v 0)%R /\ (Rsum w = Rsum u + Rsum v)%R.
Proof.
  induction u as [|x u IH]; intros [|y v] w H; cbn [zipM] in H; try discriminate.
  - inversion H; subst. split; [auto|]. split; [auto|]. split; [|simpl; lra]. intros [|k]; simpl; lra.
  - match type of H with bind ?m _ = _ => destruct m as [r|] eqn:E1; [|discriminate] end. cbn [bind] in H. inversion H; subst.
    destruct (IH _ _ E1) as (L1 & L2 & L3 & L4). split; [simpl; congruence|]. split; [simpl; congruence|]. split.
    + intros [|k]; simpl; [reflexivity|apply L3].
    + cbn [Rsum]. rewrite L4. change (aadd (x : num R_arith) y) with (x + y)%R. lra.
Qed.

Lemma nth_le_Rsum : forall (l : list R), (forall k, 0 <= nth k l 0)%R -> forall k, k < length l -> (nth k l 0 <= Rsum l)%R.
Proof.
  induction l as [|x l IH]; intros H k Hk; [simpl in Hk; lia|].
  assert (Hl : forall k, (0 <= nth k l 0)%R) by (intro j; apply (H (S j))). pose proof (H 0) as H0. cbn [nth] in H0.
  destruct k as [|k]; cbn [nth Rsum].
  - assert (0 <= Rsum l)%R. { destruct l as [|z l]; [simpl; lra|]. pose proof (IH Hl 0 ltac:(simpl; lia)). pose proof (Hl 0). lra. } lra.
  - pose proof (IH Hl k ltac:(simpl in Hk; lia)). lra.
Qed.

Lemma nth_scal : forall (a : R) l k, (nth k (map (Rmult a) l) 0 = a * nth k l 0)%R.
Proof. induction l as [|x l IH]; intros [|k]; simpl; auto; lra. Qed.

Lemma mix_vec_R : forall (a : R) (u v w : list R), @mix_vec R_arith a u v = Ok w ->
  (forall k, nth k w 0 = a * nth k u 0 + (1 - a) * nth k v 0)%R /\ (Rsum w = a * Rsum u + (1 - a) * Rsum v)%R.
Proof.
  intros a u v w H. unfold mix_vec in H. apply zipM_add in H. destruct H as (_ & _ & H1 & H2). split.
  - intros k. rewrite H1. change (map (amul (a : num R_arith)) u) with (map (Rmult a) u).
    change (map (amul (asub a1 (a : num R_arith))) v) with (map (Rmult (1 - a)) v). rewrite !nth_scal. reflexivity.
  - rewrite H2. change (map (amul (a : num R_arith)) u) with (map (Rmult a) u).
    change (map (amul (asub a1 (a : num R_arith))) v) with (map (Rmult (1 - a)) v).
    pose proof (Rsum_scal (fun z : R => z) a u) as S1. pose proof (Rsum_scal (fun z : R => z) (1 - a) v) as S2.
    rewrite !map_id in S1, S2. rewrite <- S1, <- S2. reflexivity.
Qed.

Section Agg.
Context {E : env R_arith} {tk : task R_arith E} (ts : task_shape tk).
Context (tc : tctx R_arith (tk_Y tk)).
Context (train valid : list nat) (s : rng E) (g : gstate tk) (b0 : btree tk).
Context (F : fitted ts tc train valid s g b0).
Notation t := (g_tree g).

Lemma bval_prunings : forall x row L (lf : pruning -> nat), all_prunings t 0 L ->
  (forall pr, In pr L -> pruned_leaf t row pr (lf pr)) ->
  bval tc x row b0 root_place = pruning_average t (tc_step tc) L (fun pr => x (lf pr)).
Proof.
  intros x row L lf HL Hlf. pose proof (In_root b0 root_place) as HI.
  pose proof (bprunes_all ts tc train valid s g b0 F b0 root_place HI) as HA.
  pose proof (all_prunings_perm g _ _ _ HL HA) as HP.
  unfold pruning_average. rewrite (Rsum_perm _ _ (Permutation_map _ HP)), (Rsum_perm _ _ (Permutation_map (pruning_weight t (tc_step tc)) HP)).
  rewrite (exp_lw ts tc train valid s g b0 F b0 root_place HI).
  rewrite (Rsum_ext _ (fun pr => pruning_weight t (tc_step tc) pr * x (rleaf row b0 root_place pr))%R).
  - pose proof (bval_average ts tc train valid s g b0 F x row b0 root_place HI) as B.
    apply (Rmult_eq_reg_r (exp (lw (tc_step tc) b0))); [|apply Rgt_not_eq; apply exp_pos].
    etransitivity; [exact B|]. field. apply Rgt_not_eq. apply exp_pos.
  - intros pr Hpr. f_equal. f_equal.
    eapply (pruned_leaf_det g); [apply Hlf; eapply Permutation_in; [apply Permutation_sym; exact HP|exact Hpr]|].
    eapply (rleaf_ok ts tc train valid s g b0 F row b0 root_place pr); auto.
Qed.

Lemma leaves_of_prunings : forall row, exists L lf, all_prunings t 0 L /\ forall pr, In pr L -> pruned_leaf t row pr (lf pr).
Proof.
  intros row. exists (bprunes b0 root_place), (rleaf row b0 root_place). pose proof (In_root b0 root_place) as HI. split.
  - apply (bprunes_all ts tc train valid s g b0 F b0 root_place HI).
  - intros pr H. apply (rleaf_ok ts tc train valid s g b0 F row b0 root_place pr); auto.
Qed.

Context (Htr : in_range tc train) (Hva : in_range tc valid).
Context (fb' : fba) (i : nat) (Hwf : fba_wf fb') (Hi : i < fb_n_samples fb') (Hnf : fb_n_features fb' = fb_n_features (tc_fb tc)).
Notation row := (bin_of fb' i).

(** A component of the prediction. *)
Lemma predict_value : forall mix (pi : tk_P tk -> R) (x : nat -> R) v,
  (forall b p, inside b0 root_place b p -> pi (nc_pred (bd_nc (broot b))) = x (pl_id p)) ->
  (forall a u v w, mix a u v = Ok w -> pi w = (a * pi u + (1 - a) * pi v)%R) ->
  tc_aggregation tc = true -> predict_one mix t fb' true (tc_step tc) i = Ok v -> pi v = bval tc x row b0 root_place.
Proof.
  intros mix pi x v Hpi Hmix Ha H. unfold predict_one in H.
  rewrite (find_leaf_fitted ts tc train valid s g b0 F fb' i Hwf Hi Hnf) in H. cbn [bind] in H.
  destruct (node_pred_ok ts tc train valid s g b0 F Htr Hva _ _ (bleaf_inside row b0 root_place)) as [H1 _]. rewrite H1 in H. cbn [bind] in H.
  rewrite (climb_fitted ts tc train valid s g b0 F fb' i) in H.
  eapply (walk_value tc b0 x row Ha) with (p := root_place); [|exact Hmix|apply In_root| |exact H].
  - intros b p u HI Hu. cbn beta in Hu.
    destruct (node_pred_ok ts tc train valid s g b0 F Htr Hva b p HI) as [K1 _]. rewrite K1 in Hu. inversion Hu; subst. apply Hpi. auto.
  - apply Hpi. apply bleaf_inside.
Qed.

Lemma predict_leaf : forall mix v step, predict_one mix t fb' false step i = Ok v ->
  exists b p, inside b0 root_place b p /\ v = nc_pred (bd_nc (broot b)).
Proof.
  intros mix v step H. unfold predict_one in H.
  rewrite (find_leaf_fitted ts tc train valid s g b0 F fb' i Hwf Hi Hnf) in H. cbn [bind] in H.
  destruct (node_pred_ok ts tc train valid s g b0 F Htr Hva _ _ (bleaf_inside row b0 root_place)) as [H1 _]. rewrite H1 in H. cbn [bind] in H.
  inversion H; subst. eexists _, _. split; [apply bleaf_inside|reflexivity].
Qed.

Lemma bpath_inside : forall q, In q (bpath row b0 root_place) -> inside b0 root_place (fst q) (snd q).
Proof.
  intros q H. rewrite bpath_split in H. apply in_app_iff in H. destruct H as [H|[<-|[]]].
  - eapply banc_inside; eauto.
  - apply bleaf_inside.
Qed.

End Agg.

Lemma n_train_pos : forall {A : arith} {E : env A} (tk : task A E) p fb y train valid weights s tc g,
  valid_call tk p fb y train valid weights ->
  tree_fit tk p fb y train valid weights s = Ok (tc, g) -> train <> [] ->
  forall id n, node_at (g_tree g) id n -> 1 <= nd_n_train n.
Proof.
  intros A E tk p fb y train valid weights s tc g H Hfit Hne id n Hn.
  destruct (fit_inv tk p fb y train valid weights s tc g H Hfit) as (ts & b0 & C & V & Htr & Hva & F).
  destruct (Nat.eq_dec id 0) as [->|Hid].
  - destruct (inside_node ts tc train valid s g b0 F b0 root_place (In_root _ _)) as [_ N1]. cbn [root_place pl_id] in N1.
    destruct Hn as [_ Hn]. rewrite N1 in Hn. inversion Hn; subst.
    destruct (hnode_counts ts tc train valid s g b0 F Htr Hva b0 root_place (In_root _ _)) as (-> & _).
    destruct (inside_root_data ts tc train valid s g b0 F) as (_ & _ & -> & _). destruct train; [congruence|simpl; lia].
  - destruct (C19_min_samples_leaf tk p fb y train valid weights s tc g H Hfit id n Hn Hid) as [H1 _].
    pose proof (vf_msl _ _ _ _ _ _ V). lia.
Qed.

(** ** C33: the aggregated prediction is the average over all prunings *)

Theorem C33_classification : forall (E : env R_arith) K dirichlet crit st p fb y train valid weights s tc g,
  good_env E -> valid_fit p fb y train valid weights -> valid_labels K st (tp_is_categorical p) y ->
  tp_aggregation p = true ->
  tree_fit (clf_task E K dirichlet crit st) p fb y train valid weights s = Ok (tc, g) ->
  forall fb' i, fba_wf fb' -> i < fb_n_samples fb' -> fb_n_features fb' = fb_n_features fb ->
  (exists L leaf, all_prunings (g_tree g) 0 L /\ forall pr, In pr L -> pruned_leaf (g_tree g) (bin_of fb' i) pr (leaf pr)) /\
  exists v, predict_one mix_vec (g_tree g) fb' true (tp_step p) i = Ok v /\ length v = K /\
  forall L leaf, all_prunings (g_tree g) 0 L -> (forall pr, In pr L -> pruned_leaf (g_tree g) (bin_of fb' i) pr (leaf pr)) ->
  forall k, nth k v 0%R = pruning_average (g_tree g) (tp_step p) L (fun pr => class_prob (g_tree g) k (leaf pr)).
Proof.
  intros E K d crit st p fb y train valid weights s tc g HE V HL Ha Hfit fb' i Hwf Hi Hnf.
  destruct (C27_predicting_classifier K d crit st p fb y train valid weights s tc g HE V HL Hfit fb' i true (tp_step p) Hwf Hi Hnf (fun _ => Ha)) as (v & Hv & Hl).
  destruct (clf_inv K d crit st p fb y train valid weights s tc g HE V HL Hfit) as (b0 & _ & C & Htr & Hva & F).
  rewrite <- (cc_fb _ _ _ _ _ _ C), <- (cc_agg _ _ _ _ _ _ C), <- (cc_step _ _ _ _ _ _ C) in *.
  split; [apply (leaves_of_prunings (clf_shape E K d crit st) tc train valid s g b0 F)|].
  exists v. split; [exact Hv|]. split; [exact Hl|]. intros L leaf HL' Hlf k.
  rewrite <- (bval_prunings (clf_shape E K d crit st) tc train valid s g b0 F (class_prob (g_tree g) k) (bin_of fb' i) L leaf HL' Hlf).
  apply (predict_value (clf_shape E K d crit st) tc train valid s g b0 F Htr Hva fb' i Hwf Hi Hnf mix_vec (fun u : list R => nth k u 0%R)); auto.
  - intros b q HI. destruct (node_pred_ok (clf_shape E K d crit st) tc train valid s g b0 F Htr Hva b q HI) as [K1 _].
    apply get_ok in K1. symmetry. apply class_prob_of. exact K1.
  - intros a u w z Hz. apply mix_vec_R in Hz. apply Hz.
Qed.
Print Assumptions C33_classification.

Theorem C33_regression : forall (E : env R_arith) p fb y train valid weights s tc g,
  good_env E -> valid_fit p fb y train valid weights ->
  tp_aggregation p = true ->
  tree_fit (reg_task E) p fb y train valid weights s = Ok (tc, g) ->
  forall fb' i, fba_wf fb' -> i < fb_n_samples fb' -> fb_n_features fb' = fb_n_features fb ->
  (exists L leaf, all_prunings (g_tree g) 0 L /\ forall pr, In pr L -> pruned_leaf (g_tree g) (bin_of fb' i) pr (leaf pr)) /\
  exists v, predict_one mix_num (g_tree g) fb' true (tp_step p) i = Ok v /\
  forall L leaf, all_prunings (g_tree g) 0 L -> (forall pr, In pr L -> pruned_leaf (g_tree g) (bin_of fb' i) pr (leaf pr)) ->
  v = pruning_average (g_tree g) (tp_step p) L (fun pr => value_at (g_tree g) (leaf pr)).
Proof.
  intros E p fb y train valid weights s tc g HE V Ha Hfit fb' i Hwf Hi Hnf.
  destruct (C27_predicting_regressor p fb y train valid weights s tc g HE V Hfit fb' i true (tp_step p) Hwf Hi Hnf (fun _ => Ha)) as ((v & Hv) & _).
  destruct (reg_inv p fb y train valid weights s tc g HE V Hfit) as (b0 & _ & C & Htr & Hva & F).
  rewrite <- (cc_fb _ _ _ _ _ _ C), <- (cc_agg _ _ _ _ _ _ C), <- (cc_step _ _ _ _ _ _ C) in *.
  split; [apply (leaves_of_prunings (reg_shape E) tc train valid s g b0 F)|].
  exists v. split; [exact Hv|]. intros L leaf HL' Hlf.
  rewrite <- (bval_prunings (reg_shape E) tc train valid s g b0 F (value_at (g_tree g)) (bin_of fb' i) L leaf HL' Hlf).
  apply (predict_value (reg_shape E) tc train valid s g b0 F Htr Hva fb' i Hwf Hi Hnf mix_num (fun u : R => u)); auto.
  - intros b q HI. destruct (node_pred_ok (reg_shape E) tc train valid s g b0 F Htr Hva b q HI) as [K1 _].
    apply get_ok in K1. symmetry. apply value_at_of. exact K1.
  - intros a u w z Hz. unfold mix_num in Hz. inversion Hz. reflexivity.
Qed.
Print Assumptions C33_regression.

(** ** C34, one tree: the predictions of a classification tree are probabilities *)

Lemma pred_is_distribution : forall (E : env R_arith) K dirichlet crit st p fb y train valid weights s tc g,
  good_env E -> valid_fit p fb y train valid weights -> valid_labels K st (tp_is_categorical p) y ->
  positive_weights weights -> (0 <= dirichlet)%R -> train <> [] ->
  tree_fit (clf_task E K dirichlet crit st) p fb y train valid weights s = Ok (tc, g) ->
  forall id n, node_at (g_tree g) id n ->
  exists v, nth_error (tr_y_pred (g_tree g)) id = Some v /\ length v = K /\ (forall k, 0 <= nth k v 0)%R /\ Rsum v = 1%R.
Proof.
  intros E K d crit st p fb y train valid weights s tc g HE V HL HW Hd Hne Hfit id n Hn.
  assert (HC : valid_call (clf_task E K d crit st) p fb y train valid weights) by (apply VC_classifier; auto).
  pose proof (n_train_pos (clf_task E K d crit st) p fb y train valid weights s tc g HC Hfit Hne id n Hn) as Hpos.
  destruct (C17_tree_classification K d crit st p fb y train valid weights s tc g HE V HL Hfit id n Hn)
    as (f & v & _ & N1 & _ & _ & _ & N2 & Hl & Hk & _).
  cbv zeta in *. set (l := filter f train) in *.
  assert (Hlin : forall i, In i l -> In i train) by (intros i Hi; apply filter_In in Hi; apply Hi).
  assert (Hw : forall i, In i l -> (0 < @weight R_arith weights i)%R).
  { intros i Hi. unfold weight. apply HW. apply nth_In. rewrite (vf_w _ _ _ _ _ _ V). apply (vf_train _ _ _ _ _ _ V). auto. }
  assert (HWpos : (0 < Rsum (map (@weight R_arith weights) l))%R).
  { apply Rsum_pos; auto. intros ->. rewrite N1 in Hpos. simpl in Hpos. lia. }
  assert (HKd : (0 <= INR K * d)%R) by (apply Rmult_le_pos; [apply pos_INR|auto]).
  assert (Hval : v = map (fun k => ((Rsum (map (@weight R_arith weights) (of_class y k l)) + d) / (Rsum (map (@weight R_arith weights) l) + INR K * d))%R) (seq 0 K)).
  { apply (nth_ext _ _ 0%R 0%R); [rewrite map_length, seq_length; auto|]. intros k Hk'.
    assert (HkK : k < K) by (eapply Nat.lt_le_trans; [exact Hk'|apply Nat.eq_le_incl; exact Hl]). clear Hk'. specialize (Hk k HkK).
    apply get_ok in Hk. apply (nth_error_nth _ _ 0%R) in Hk. etransitivity; [exact Hk|].
    rewrite (nth_indep _ 0%R ((fun k => ((Rsum (map (@weight R_arith weights) (of_class y k l)) + d) / (Rsum (map (@weight R_arith weights) l) + INR K * d))%R) 0)) by (rewrite map_length, seq_length; auto).
    rewrite (map_nth (fun k => ((Rsum (map (@weight R_arith weights) (of_class y k l)) + d) / (Rsum (map (@weight R_arith weights) l) + INR K * d))%R)), seq_nth by auto.
    unfold smoothed_freq, total_weight. rewrite !asum_R. reflexivity. }
  exists v. split; [exact N2|]. split; [exact Hl|]. 
  assert (Hnn : forall x, In x v -> (0 <= x)%R).
  { intros x Hx. rewrite Hval in Hx. apply in_map_iff in Hx. destruct Hx as (k & <- & _).
    apply Rmult_le_pos; [|left; apply Rinv_0_lt_compat; lra]. apply Rplus_le_le_0_compat; [|auto].
    apply Rsum_nonneg. intros x Hx. apply in_map_iff in Hx. destruct Hx as (i & <- & Hi). left. apply Hw. apply filter_In in Hi. apply Hi. }
  split.
  - intros k. destruct (lt_dec k (length v)); [apply Hnn; apply nth_In; auto|rewrite nth_overflow by lia; lra].
  - rewrite Hval. unfold Rdiv.
    rewrite (Rsum_ext _ (fun k => / (Rsum (map (@weight R_arith weights) l) + INR K * d) * (Rsum (map (@weight R_arith weights) (of_class y k l)) + d))%R) by (intros; ring).
    rewrite Rsum_scal.
    assert (ES : Rsum (map (fun k => (Rsum (map (@weight R_arith weights) (of_class y k l)) + d)%R) (seq 0 K)) = (Rsum (map (@weight R_arith weights) l) + INR K * d)%R).
    { rewrite Rsum_plus. f_equal.
      - pose proof (Rsum_bins (@weight R_arith weights) (fun i => nth i y 0) l (seq 0 K) (seq_NoDup K 0)) as B.
        etransitivity; [exact B|]. apply (f_equal (fun z => Rsum (map (@weight R_arith weights) z))). apply filter_all. intros i Hi. apply mem_bin_in. apply in_seq.
        split; [lia|]. apply (vl_range _ _ _ _ HL). apply nth_In. rewrite (vf_y _ _ _ _ _ _ V). apply (vf_train _ _ _ _ _ _ V). auto.
      - clear. rewrite <- (seq_length K 0) at 2. induction (seq 0 K) as [|a q IH]; [simpl; lra|].
        cbn [map Rsum length]. rewrite S_INR, IH. lra. }
    rewrite ES. apply Rinv_l. lra.
Qed.

Theorem C34_tree : forall (E : env R_arith) K dirichlet crit st p fb y train valid weights s tc g,
  good_env E -> valid_fit p fb y train valid weights -> valid_labels K st (tp_is_categorical p) y ->
  positive_weights weights -> (0 <= dirichlet)%R -> train <> [] ->
  tree_fit (clf_task E K dirichlet crit st) p fb y train valid weights s = Ok (tc, g) ->
  forall fb' i agg, fba_wf fb' -> i < fb_n_samples fb' -> fb_n_features fb' = fb_n_features fb ->
  (agg = true -> tp_aggregation p = true) ->
  exists v, predict_one mix_vec (g_tree g) fb' agg (tp_step p) i = Ok v /\
    length v = K /\ (forall x, In x v -> 0 <= x)%R /\ Rsum v = 1%R.
Proof.
  intros E K d crit st p fb y train valid weights s tc g HE V HL HW Hd Hne Hfit fb' i agg Hwf Hi Hnf Hagg.
  destruct (C27_predicting_classifier K d crit st p fb y train valid weights s tc g HE V HL Hfit fb' i agg (tp_step p) Hwf Hi Hnf Hagg) as (v & Hv & Hl).
  pose proof (pred_is_distribution E K d crit st p fb y train valid weights s tc g HE V HL HW Hd Hne Hfit) as HD.
  destruct (clf_inv K d crit st p fb y train valid weights s tc g HE V HL Hfit) as (b0 & _ & C & Htr & Hva & F).
  rewrite <- (cc_fb _ _ _ _ _ _ C), <- (cc_agg _ _ _ _ _ _ C), <- (cc_step _ _ _ _ _ _ C) in *.
  exists v. split; [exact Hv|]. split; [exact Hl|].
  assert (Hin : forall b q, inside b0 root_place b q -> exists u, nth_error (tr_y_pred (g_tree g)) (pl_id q) = Some u /\
    nc_pred (bd_nc (broot b)) = u /\ (forall k, 0 <= nth k u 0)%R /\ Rsum u = 1%R).
  { intros b q HI. pose proof (inside_node (clf_shape E K d crit st) tc train valid s g b0 F b q HI) as Hn.
    destruct (HD _ _ Hn) as (u & U1 & _ & U3 & U4). exists u. split; [exact U1|]. split; [|auto].
    destruct (node_pred_ok (clf_shape E K d crit st) tc train valid s g b0 F Htr Hva b q HI) as [K1 _]. apply get_ok in K1. congruence. }
  assert (HR : (forall k, 0 <= nth k v 0)%R /\ Rsum v = 1%R).
  { destruct agg.
    - split.
      + intros k.
        assert (Ev : nth k v 0%R = bval tc (class_prob (g_tree g) k) (bin_of fb' i) b0 root_place).
        { apply (predict_value (clf_shape E K d crit st) tc train valid s g b0 F Htr Hva fb' i Hwf Hi Hnf mix_vec (fun u : list R => nth k u 0%R)); auto.
          - intros b q HI. destruct (Hin b q HI) as (u & U1 & U2 & _). cbn beta. rewrite U2. symmetry. apply class_prob_of. exact U1.
          - intros a u w z Hz. apply mix_vec_R in Hz. apply Hz. }
        rewrite Ev.
        assert (HB : forall q, In q (bpath (bin_of fb' i) b0 root_place) -> (0 <= class_prob (g_tree g) k (pl_id (snd q)) <= 1)%R).
        { intros q Hq. destruct (Hin _ _ (bpath_inside b0 fb' i q Hq)) as (u & U1 & _ & U3 & U4).
          rewrite (class_prob_of (g_tree g) k _ u U1). split; [apply U3|].
          destruct (lt_dec k (length u)) as [Hk|Hk]; [|rewrite nth_overflow by (apply Nat.nlt_ge; exact Hk); apply Rle_0_1].
          apply (Rle_trans _ (Rsum u)); [apply nth_le_Rsum; auto|right; exact U4]. }
        apply (bval_bounds tc _ _ 0 1 b0 root_place HB).
      + set (x := fun id => match nth_error (tr_y_pred (g_tree g)) id with Some u => Rsum u | None => 0%R end).
        assert (Ev : Rsum v = bval tc x (bin_of fb' i) b0 root_place).
        { apply (predict_value (clf_shape E K d crit st) tc train valid s g b0 F Htr Hva fb' i Hwf Hi Hnf mix_vec (fun u : list R => Rsum u)); auto.
          - intros b q HI. destruct (Hin b q HI) as (u & U1 & U2 & _). cbn beta. unfold x. rewrite U1, U2. reflexivity.
          - intros a u w z Hz. apply mix_vec_R in Hz. apply Hz. }
        rewrite Ev.
        assert (HB : forall q, In q (bpath (bin_of fb' i) b0 root_place) -> (1 <= x (pl_id (snd q)) <= 1)%R).
        { intros q Hq. destruct (Hin _ _ (bpath_inside b0 fb' i q Hq)) as (u & U1 & _ & U3 & U4). unfold x. rewrite U1. split; right; [symmetry|]; exact U4. }
        pose proof (bval_bounds tc _ _ 1 1 b0 root_place HB) as [B1 B2]. apply Rle_antisym; [exact B2|exact B1].
    - destruct (predict_leaf (clf_shape E K d crit st) tc train valid s g b0 F Htr Hva fb' i Hwf Hi Hnf mix_vec v _ Hv) as (b & q & HI & ->).
      destruct (Hin b q HI) as (u & _ & -> & H). exact H. }
  destruct HR as [HR1 HR2]. split; [|exact HR2]. intros x Hx. destruct (In_nth _ _ 0%R Hx) as (k & _ & <-). apply HR1.
Qed.
Print Assumptions C34_tree.

(** ** C35, one tree: regression predictions stay within the range of the training labels *)

Theorem C35_tree : forall (E : env R_arith) p fb y train valid weights s tc g,
  good_env E -> valid_fit p fb y train valid weights ->
  positive_weights weights -> train <> [] ->
  tree_fit (reg_task E) p fb y train valid weights s = Ok (tc, g) ->
  forall lo hi : R, (forall i, In i train -> (lo <= nth i y 0 <= hi)%R) ->
  forall fb' i agg, fba_wf fb' -> i < fb_n_samples fb' -> fb_n_features fb' = fb_n_features fb ->
  (agg = true -> tp_aggregation p = true) ->
  exists v, predict_one mix_num (g_tree g) fb' agg (tp_step p) i = Ok v /\ (lo <= v <= hi)%R.
Proof.
  intros E p fb y train valid weights s tc g HE V HW Hne Hfit lo hi Hb fb' i agg Hwf Hi Hnf Hagg.
  destruct (C27_predicting_regressor p fb y train valid weights s tc g HE V Hfit fb' i agg (tp_step p) Hwf Hi Hnf Hagg) as ((v & Hv) & _).
  assert (HC : valid_call (reg_task E) p fb y train valid weights) by (apply VC_regressor; auto).
  assert (HD : forall id n, node_at (g_tree g) id n -> exists u, nth_error (tr_y_pred (g_tree g)) id = Some u /\ (lo <= u <= hi)%R).
  { intros id n Hn. pose proof (n_train_pos (reg_task E) p fb y train valid weights s tc g HC Hfit Hne id n Hn) as Hpos.
    destruct (C17_tree_regression p fb y train valid weights s tc g HE V Hfit id n Hn) as (f & u & _ & N1 & _ & _ & _ & N2 & Eu & _).
    cbv zeta in *. exists u. split; [exact N2|]. set (l := filter f train) in *.
    assert (Hw : forall i, In i l -> (0 < @weight R_arith weights i)%R).
    { intros j Hj. unfold weight. apply HW. apply nth_In. rewrite (vf_w _ _ _ _ _ _ V). apply (vf_train _ _ _ _ _ _ V).
      apply filter_In in Hj. apply Hj. }
    assert (HWpos : (0 < Rsum (map (@weight R_arith weights) l))%R).
    { apply Rsum_pos; auto. intros E0. rewrite N1, E0 in Hpos. simpl in Hpos. lia. }
    assert (Eu' : u = (Rsum (map (fun i => @weight R_arith weights i * nth i y 0) l) / Rsum (map (@weight R_arith weights) l))%R).
    { rewrite Eu. unfold label_sum, total_weight. rewrite !asum_R. reflexivity. }
    assert (HS : (lo * Rsum (map (@weight R_arith weights) l) <= Rsum (map (fun i => @weight R_arith weights i * nth i y 0) l) <= hi * Rsum (map (@weight R_arith weights) l))%R).
    { assert (Hb' : forall i, In i l -> (lo <= nth i y 0 <= hi)%R) by (intros j Hj; apply Hb; apply filter_In in Hj; apply Hj).
      clear - Hw Hb'. induction l as [|j l IH]; [simpl; lra|]. cbn [map Rsum].
      assert (IH' := IH (fun i Hi => Hw i (or_intror Hi)) (fun i Hi => Hb' i (or_intror Hi))).
      pose proof (Hw j (or_introl eq_refl)) as W. destruct (Hb' j (or_introl eq_refl)) as [B1 B2].
      apply (Rmult_le_compat_l (@weight R_arith weights j)) in B1; [|lra]. apply (Rmult_le_compat_l (@weight R_arith weights j)) in B2; [|lra].
      split; lra. }
    rewrite Eu'. unfold Rdiv. split.
    - apply (Rmult_le_reg_r (Rsum (map (@weight R_arith weights) l))); [auto|]. rewrite Rmult_assoc, Rinv_l, Rmult_1_r by lra. lra.
    - apply (Rmult_le_reg_r (Rsum (map (@weight R_arith weights) l))); [auto|]. rewrite Rmult_assoc, Rinv_l, Rmult_1_r by lra. lra. }
  destruct (reg_inv p fb y train valid weights s tc g HE V Hfit) as (b0 & _ & C & Htr & Hva & F).
  rewrite <- (cc_fb _ _ _ _ _ _ C), <- (cc_agg _ _ _ _ _ _ C), <- (cc_step _ _ _ _ _ _ C) in *.
  exists v. split; [exact Hv|].
  assert (Hin : forall b q, inside b0 root_place b q -> exists u, nth_error (tr_y_pred (g_tree g)) (pl_id q) = Some u /\
    nc_pred (bd_nc (broot b)) = u /\ (lo <= u <= hi)%R).
  { intros b q HI. pose proof (inside_node (reg_shape E) tc train valid s g b0 F b q HI) as Hn.
    destruct (HD _ _ Hn) as (u & U1 & U3). exists u. split; [exact U1|]. split; [|auto].
    destruct (node_pred_ok (reg_shape E) tc train valid s g b0 F Htr Hva b q HI) as [K1 _]. apply get_ok in K1. congruence. }
  destruct agg.
  - assert (Ev : (fun u : R => u) v = bval tc (value_at (g_tree g)) (bin_of fb' i) b0 root_place).
    { apply (predict_value (reg_shape E) tc train valid s g b0 F Htr Hva fb' i Hwf Hi Hnf mix_num (fun u : R => u)); auto.
      - intros b q HI. destruct (Hin b q HI) as (u & U1 & U2 & _). cbn beta. rewrite U2. symmetry. apply value_at_of. exact U1.
      - intros a u w z Hz. unfold mix_num in Hz. inversion Hz. reflexivity. }
    cbn beta in Ev. rewrite Ev. apply (bval_bounds tc _ _ lo hi b0 root_place). intros q Hq.
    destruct (Hin _ _ (bpath_inside b0 fb' i q Hq)) as (u & U1 & _ & U3). rewrite (value_at_of (g_tree g) _ u U1). exact U3.
  - destruct (predict_leaf (reg_shape E) tc train valid s g b0 F Htr Hva fb' i Hwf Hi Hnf mix_num v _ Hv) as (b & q & HI & ->).
    destruct (Hin b q HI) as (u & _ & -> & H). exact H.
Qed.
Print Assumptions C35_tree.

(** ** C36: the weighted depth is the average depth over all prunings *)

Lemma depth_at_inside : forall {E : env R_arith} {tk : task R_arith E} (ts : task_shape tk) (tc : tctx R_arith (tk_Y tk)) train valid s g b0,
  fitted ts tc train valid s g b0 -> forall b p, inside b0 root_place b p ->
  depth_at (g_tree g) (pl_id p) = INR (bd_depth (broot b)).
Proof.
  intros E tk ts tc train valid s g b0 F b p HI. unfold depth_at.
  destruct (inside_node ts tc train valid s g b0 F b p HI) as [_ ->]. destruct b; reflexivity.
Qed.

Lemma bpath_depth : forall {E : env R_arith} {tk : task R_arith E} (ts : task_shape tk) (tc : tctx R_arith (tk_Y tk)) train valid s g b0 row,
  fitted ts tc train valid s g b0 -> in_range tc train -> in_range tc valid ->
  forall b p, inside b0 root_place b p -> forall q, In q (bpath row b p) ->
  bd_depth (broot b) <= bd_depth (broot (fst q)) <= bd_depth (broot (fst (bleaf row b p))).
Proof.
  intros E tk ts tc train valid s g b0 row F Htr Hva. induction b as [d|d l IHl r IHr]; intros p HI q Hq; cbn [bpath bleaf] in *.
  - destruct Hq as [<-|[]]. simpl. lia.
  - pose proof (inside_children ts tc train valid s g b0 F Htr Hva d l r p HI) as CH.
    pose proof (cd_depth_l _ _ _ _ _ CH) as D1. pose proof (cd_depth_r _ _ _ _ _ CH) as D2. cbn [broot] in *.
    assert (self : forall (b : btree tk) p, In (b, p) (bpath row b p)) by (intros [?|? ? ?] ?; simpl; auto).
    destruct (to_left _ _).
    + assert (HIl := In_left _ _ _ _ _ _ HI). destruct Hq as [<-|Hq].
      * pose proof (IHl _ HIl _ (self l (lplace p d l r))) as H. cbn [fst broot] in *. lia.
      * pose proof (IHl _ HIl q Hq) as H. lia.
    + assert (HIr := In_right _ _ _ _ _ _ HI). destruct Hq as [<-|Hq].
      * pose proof (IHr _ HIr _ (self r (rplace p d l r))) as H. cbn [fst broot] in *. lia.
      * pose proof (IHr _ HIr q Hq) as H. lia.
Qed.

Theorem C36_weighted_depth : forall {E : env R_arith} (tk : task R_arith E) p fb y train valid weights s tc g,
  valid_call tk p fb y train valid weights -> tp_aggregation p = true ->
  tree_fit tk p fb y train valid weights s = Ok (tc, g) ->
  forall fb' i, fba_wf fb' -> i < fb_n_samples fb' -> fb_n_features fb' = fb_n_features fb ->
  (exists L leaf, all_prunings (g_tree g) 0 L /\ forall pr, In pr L -> pruned_leaf (g_tree g) (bin_of fb' i) pr (leaf pr)) /\
  exists v, weighted_depth_one (g_tree g) fb' (tp_step p) i = Ok v /\
  (forall L leaf, all_prunings (g_tree g) 0 L -> (forall pr, In pr L -> pruned_leaf (g_tree g) (bin_of fb' i) pr (leaf pr)) ->
   v = pruning_average (g_tree g) (tp_step p) L (fun pr => depth_at (g_tree g) (leaf pr))) /\
  exists leaf, find_leaf (g_tree g) fb' i = Ok leaf /\ (0 <= v <= depth_at (g_tree g) leaf)%R.
Proof.
  intros E tk p fb y train valid weights s tc g HC Ha Hfit fb' i Hwf Hi Hnf.
  destruct (fit_inv tk p fb y train valid weights s tc g HC Hfit) as (ts & b0 & C & V & Htr & Hva & F).
  rewrite <- (cc_fb _ _ _ _ _ _ C), <- (cc_agg _ _ _ _ _ _ C), <- (cc_step _ _ _ _ _ _ C) in *.
  split; [apply (leaves_of_prunings ts tc train valid s g b0 F)|].
  set (row := bin_of fb' i).
  assert (Hrun : exists v, weighted_depth_one (g_tree g) fb' (tc_step tc) i = Ok v /\ v = bval tc (depth_at (g_tree g)) row b0 root_place).
  { unfold weighted_depth_one. rewrite (find_leaf_fitted ts tc train valid s g b0 F fb' i Hwf Hi Hnf). cbn [bind]. fold row.
    destruct (inside_node ts tc train valid s g b0 F _ _ (bleaf_inside row b0 root_place)) as [_ Hn].
    apply get_ok in Hn. rewrite Hn. cbn [bind]. rewrite (climb_fitted ts tc train valid s g b0 F fb' i). fold row.
    set (v0 := aofnat _).
    assert (G : exists v, foldM (mix_at (Wof tc) (tc_step tc) (fun _ n => Ok (@aofnat R_arith (nd_depth n))) mix_num) (rev (banc row b0 root_place)) v0 = Ok v).
    { generalize v0. generalize (rev (banc row b0 root_place)). intros qs. induction qs as [|q qs IH]; intros z; [simpl; eauto|].
      cbn [foldM]. destruct (alpha_ok tc (tc_step tc) (fst q) (snd q) Ha) as [a Ea].
      assert (Em : exists w, mix_at (Wof tc) (tc_step tc) (fun _ n => Ok (@aofnat R_arith (nd_depth n))) mix_num z q = Ok w).
      { unfold mix_at. cbn [bind]. rewrite Ea. cbn [bind]. unfold mix_num. eauto. }
      destruct Em as [w Em]. rewrite Em. cbn [bind]. apply IH. }
    destruct G as [v Gv]. exists v. split; [exact Gv|].
    apply (walk_value tc b0 (depth_at (g_tree g)) row Ha R (fun _ n => Ok (@aofnat R_arith (nd_depth n))) mix_num (fun u => u)) with (p := root_place) (v := v0).
    - intros b q u HI Hu. inversion Hu; subst. rewrite (depth_at_inside ts tc train valid s g b0 F b q HI). destruct b; reflexivity.
    - intros a u w z Hz. unfold mix_num in Hz. inversion Hz. reflexivity.
    - apply In_root.
    - rewrite (depth_at_inside ts tc train valid s g b0 F _ _ (bleaf_inside row b0 root_place)). unfold v0.
      destruct (fst (bleaf row b0 root_place)); reflexivity.
    - exact Gv. }
  destruct Hrun as (v & Hv & Ev). exists v. split; [exact Hv|]. split.
  - intros L leaf HL Hlf. rewrite Ev. apply (bval_prunings ts tc train valid s g b0 F _ row L leaf HL Hlf).
  - eexists. split; [apply (find_leaf_fitted ts tc train valid s g b0 F fb' i Hwf Hi Hnf)|]. fold row. rewrite Ev.
    apply (bval_bounds tc _ row). intros q Hq. pose proof (bpath_inside b0 fb' i q Hq) as HI.
    rewrite (depth_at_inside ts tc train valid s g b0 F _ _ HI), (depth_at_inside ts tc train valid s g b0 F _ _ (bleaf_inside row b0 root_place)).
    pose proof (bpath_depth ts tc train valid s g b0 row F Htr Hva b0 root_place (In_root _ _) q Hq) as [_ H].
    split; [apply pos_INR|apply le_INR; exact H].
Qed.
Print Assumptions C36_weighted_depth.

(** ** The hypotheses are met: on the example data the trees have several prunings *)

Lemma two_prunings : forall {A P} (t : tree A P) n L, well_formed t -> node_at t 0 n -> nd_is_leaf n = false ->
  all_prunings t 0 L -> 2 <= length L.
Proof.
  intros A P t n L W Hn Hl [HN HL].
  destruct (wf_children t W 0 n Hn Hl) as (l & r & ln & rn & E1 & E2 & _ & _ & _ & N1 & N2 & _).
  assert (H1 : In (Cut 0) L) by (apply HL; econstructor; eauto).
  assert (H2 : In (Keep 0 (Cut l) (Cut r)) L) by (apply HL; eapply IP_keep; eauto; econstructor; eauto).
  destruct L as [|a [|b L]]; [destruct H1| |simpl; lia]. destruct H1 as [H1|[]]. destruct H2 as [H2|[]]. congruence.
Qed.

Example C33_classification_applies : exists tc g L leaf v,
  tree_fit (clf_task env_R 3 (/ 2)%R Gini AllMods) (exR_params true 2) ex_fb ex_labels ex_train ex_valid exR_w 0 = Ok (tc, g) /\
  all_prunings (g_tree g) 0 L /\ 2 <= length L /\
  predict_one mix_vec (g_tree g) ex_fb true 1%R 5 = Ok v /\ length v = 3 /\ Rsum v = 1%R /\
  nth 1 v 0%R = pruning_average (g_tree g) 1 L (fun pr => class_prob (g_tree g) 1 (leaf pr)).
Proof.
  destruct C18_tree_classification_applies as (tc & g & n & Hfit & Hn & Hl).
  assert (V : valid_fit (exR_params true 2) ex_fb ex_labels ex_train ex_valid exR_w) by (apply exR_valid_fit; [reflexivity|lia]).
  assert (HL := exR_valid_labels true 2). destruct ex_fb_packed as (PK & Hns & Hnf).
  assert (H5 : 5 < fb_n_samples ex_fb) by (rewrite Hns; lia).
  assert (Hd : (0 <= / 2)%R) by lra.
  destruct (C33_classification env_R 3 (/ 2)%R Gini AllMods _ _ _ _ _ _ _ _ _ env_R_good V HL eq_refl Hfit ex_fb 5
    (pk_layout _ PK) H5 eq_refl) as ((L & leaf & A1 & A2) & v & A3 & A4 & A5).
  destruct (C34_tree env_R 3 (/ 2)%R Gini AllMods _ _ _ _ _ _ _ _ _ env_R_good V HL exR_positive Hd ltac:(discriminate) Hfit ex_fb 5 true
    (pk_layout _ PK) H5 eq_refl (fun _ => eq_refl)) as (v' & B1 & _ & _ & B2).
  assert (Ev : v' = v) by (rewrite A3 in B1; inversion B1; auto). subst v'.
  exists tc, g, L, leaf, v. split; [exact Hfit|]. split; [exact A1|]. split.
  { eapply two_prunings; eauto. eapply C25_well_formed; [|exact Hfit]. apply VC_classifier; auto using env_R_good. }
  split; [exact A3|]. split; [exact A4|]. split; [exact B2|]. exact (A5 L leaf A1 A2 1).
Qed.

Example C33_regression_applies : exists tc g L leaf v,
  tree_fit (reg_task env_R) (exR_params true 2) ex_fb exR_y ex_train ex_valid exR_w 0 = Ok (tc, g) /\
  all_prunings (g_tree g) 0 L /\ 2 <= length L /\
  predict_one mix_num (g_tree g) ex_fb true 1%R 5 = Ok v /\ (1 <= v <= 9)%R /\
  v = pruning_average (g_tree g) 1 L (fun pr => value_at (g_tree g) (leaf pr)).
Proof.
  destruct C18_tree_regression_applies as (tc & g & n & Hfit & Hn & Hl).
  assert (V : valid_fit (exR_params true 2) ex_fb exR_y ex_train ex_valid exR_w) by (apply exR_valid_fit; [reflexivity|lia]).
  destruct ex_fb_packed as (PK & Hns & Hnf).
  assert (H5 : 5 < fb_n_samples ex_fb) by (rewrite Hns; lia).
  destruct (C33_regression env_R _ _ _ _ _ _ _ _ _ env_R_good V eq_refl Hfit ex_fb 5
    (pk_layout _ PK) H5 eq_refl) as ((L & leaf & A1 & A2) & v & A3 & A5).
  assert (Hb : forall i, In i ex_train -> (1 <= nth i exR_y 0 <= 9)%R).
  { intros i Hi. assert (Hi' := vf_train _ _ _ _ _ _ V i Hi). rewrite Hns in Hi'. unfold exR_y.
    do 8 (destruct i as [|i]; [simpl; lra|]). lia. }
  destruct (C35_tree env_R _ _ _ _ _ _ _ _ _ env_R_good V exR_positive ltac:(discriminate) Hfit 1%R 9%R Hb ex_fb 5 true
    (pk_layout _ PK) H5 eq_refl (fun _ => eq_refl)) as (v' & B1 & B2).
  assert (Ev : v' = v) by (rewrite A3 in B1; inversion B1; auto). subst v'.
  exists tc, g, L, leaf, v. split; [exact Hfit|]. split; [exact A1|]. split.
  { eapply two_prunings; eauto. eapply C25_well_formed; [|exact Hfit]. apply VC_regressor; auto using env_R_good. }
  split; [exact A3|]. split; [exact B2|]. exact (A5 L leaf A1 A2).
Qed.

Example C36_applies : exists tc g v,
  tree_fit (reg_task env_R) (exR_params true 2) ex_fb exR_y ex_train ex_valid exR_w 0 = Ok (tc, g) /\
  weighted_depth_one (g_tree g) ex_fb 1%R 5 = Ok v /\ (0 <= v)%R.
Proof.
  destruct C18_tree_regression_applies as (tc & g & n & Hfit & Hn & Hl).
  assert (V : valid_fit (exR_params true 2) ex_fb exR_y ex_train ex_valid exR_w) by (apply exR_valid_fit; [reflexivity|lia]).
  destruct ex_fb_packed as (PK & Hns & Hnf).
  assert (H5 : 5 < fb_n_samples ex_fb) by (rewrite Hns; lia).
  assert (HC : valid_call (reg_task env_R) (exR_params true 2) ex_fb exR_y ex_train ex_valid exR_w) by (apply VC_regressor; auto using env_R_good).
  destruct (C36_weighted_depth _ _ _ _ _ _ _ _ _ _ HC eq_refl Hfit ex_fb 5 (pk_layout _ PK) H5 eq_refl) as (_ & v & V1 & _ & leaf & _ & V2 & _).
  exists tc, g, v. auto.
Qed.
